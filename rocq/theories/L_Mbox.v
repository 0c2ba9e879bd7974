From Verif Require Import Base M_DbFile M_Mbox S_Mbox.
Local Open Scope N_scope.

(* --- the number of unchanged leading messages --- *)
Section Intact.
Variable csum : bytes -> bytes.
Variable mb : mbox.
Variable va : bytes.
Hypothesis K : places_known mb.

Lemma bytes_eqb_iff : forall a b, bytes_eqb a b = true <-> a = b.
Proof.
  induction a as [|x a IH]; intros [|y b]; cbn [bytes_eqb]; try (split; congruence).
  rewrite andb_true_iff, N.eqb_eq, IH. split; [intros [-> ->]; reflexivity|intros E; now injection E].
Qed.
Lemma intact_ok : forall i, i < mb_n mb -> exists b, message_is_intact csum mb i va = Ok b /\ (b = true <-> intact csum mb va i).
Proof.
  intros i Hi. destruct (K i Hi) as (s & l & c & E1 & E2 & E3). unfold message_is_intact, elem. rewrite E1, E2, E3. cbn [bind fetch].
  destruct (N.ltb_spec (N.of_nat (length va)) (s + l)) as [L|L].
  - exists false. split; auto. split; [discriminate|]. intros (s' & l' & F1 & F2 & F3 & _). assert (s' = s) as -> by congruence. assert (l' = l) as -> by congruence. lia.
  - eexists. split; [reflexivity|]. rewrite bytes_eqb_iff. split.
    + intros ->. exists s, l. auto.
    + intros (s' & l' & F1 & F2 & F3 & F4). assert (s' = s) as -> by congruence. assert (l' = l) as -> by congruence. congruence.
Qed.
Lemma chop_ok : forall f l h, (N.to_nat (h - l) < f)%nat -> l < h -> h <= mb_n mb -> intact csum mb va l ->
  (h < mb_n mb -> ~ intact csum mb va h) ->
  exists k, chop csum f mb va l h = Ok k /\ k < mb_n mb /\ intact csum mb va k /\ (k + 1 < mb_n mb -> ~ intact csum mb va (k + 1)).
Proof.
  induction f as [|f IH]; intros l h F L H I NI; [lia|]. cbn [chop].
  destruct (N.ltb_spec l h) as [_|]; [|lia]. destruct (N.eqb_spec ((h + l) / 2) l) as [E|E].
  - exists l. assert (h = l + 1) as -> by lia. repeat split; auto. lia.
  - destruct (intact_ok ((h + l) / 2)) as (b & -> & B); [lia|]. cbn [bind]. destruct b.
    + apply IH; auto; try lia. now apply B.
    + apply IH; auto; try lia. intros _ X. apply B in X. discriminate.
Qed.
Lemma number_intact : exists k, find_number_intact csum mb va = Ok k /\ k <= mb_n mb
  /\ (0 < k -> intact csum mb va (k - 1)) /\ (k < mb_n mb -> ~ intact csum mb va k).
Proof.
  unfold find_number_intact. destruct (N.eqb_spec (mb_n mb) 0) as [E|E].
  - exists 0. repeat split; auto; lia.
  - destruct (intact_ok (mb_n mb - 1)) as (b & -> & B); [lia|]. cbn [bind]. destruct b.
    + exists (mb_n mb). repeat split; auto; try lia. intros _. now apply B.
    + destruct (intact_ok 0) as (b & -> & B0); [lia|]. cbn [bind]. destruct b; cbn [negb].
      * destruct (chop_ok (S (N.to_nat (mb_n mb))) 0 (mb_n mb)) as (k & -> & H1 & H2 & H3); try lia; [now apply B0|].
        cbn [bind]. exists (k + 1). repeat split; auto; try lia.
        intros _. now replace (k + 1 - 1) with k by lia.
      * exists 0. repeat split; auto; try lia. intros _ X. apply B0 in X. discriminate.
Qed.
Lemma number_prefix : (forall i j, i < j -> intact csum mb va j -> intact csum mb va i) ->
  exists k, find_number_intact csum mb va = Ok k /\ longest_intact_prefix csum mb va k.
Proof.
  intros D. destruct number_intact as (k & E & H1 & H2 & H3). exists k. split; auto. repeat split; auto.
  intros i Hi. destruct (N.eq_dec i (k - 1)) as [->|]; [apply H2; lia|]. apply D with (j := k - 1); [lia|]. apply H2. lia.
Qed.
End Intact.

(* --- the "From " automaton --- *)
Definition nlfrom : bytes := 10 :: bs "From ".
Definition ends (u p : bytes) : Prop := exists v, u = v ++ p.

Lemma fromtab_bit : forall c k, k < 6 -> N.testbit (fromtab c) k = negb (c =? nth (N.to_nat k) nlfrom 0).
Proof.
  intros c k Hk. assert (k = 0 \/ k = 1 \/ k = 2 \/ k = 3 \/ k = 4 \/ k = 5) as H by lia.
  assert (G : forall x, c <> x -> (c =? x) = false) by (intros; now apply N.eqb_neq).
  unfold fromtab.
  destruct (N.eqb_spec c 10) as [->|N0]; [repeat destruct H as [->|H]; try subst k; reflexivity|].
  destruct (N.eqb_spec c (ch "F")) as [->|N1]; [repeat destruct H as [->|H]; try subst k; reflexivity|].
  destruct (N.eqb_spec c (ch "r")) as [->|N2]; [repeat destruct H as [->|H]; try subst k; reflexivity|].
  destruct (N.eqb_spec c (ch "o")) as [->|N3]; [repeat destruct H as [->|H]; try subst k; reflexivity|].
  destruct (N.eqb_spec c (ch "m")) as [->|N4]; [repeat destruct H as [->|H]; try subst k; reflexivity|].
  destruct (N.eqb_spec c (ch " ")) as [->|N5]; [repeat destruct H as [->|H]; try subst k; reflexivity|].
  assert (N.testbit (2 ^ 64 - 1) k = true) as -> by (repeat destruct H as [->|H]; try subst k; reflexivity).
  symmetry. apply negb_true_iff. apply G.
  repeat destruct H as [->|H]; try subst k; assumption.
Qed.
Lemma u64_bit : forall x k, k < 64 -> N.testbit (u64 x) k = N.testbit x k.
Proof. intros x k H. unfold u64. apply N.mod_pow2_bits_low. exact H. Qed.
Lemma step_bit : forall reg c k, k < 6 ->
  N.testbit (N.lor (u64 (N.shiftl reg 1)) (fromtab c)) k
  = (if k =? 0 then false else N.testbit reg (k - 1)) || negb (c =? nth (N.to_nat k) nlfrom 0).
Proof.
  intros reg c k H. rewrite N.lor_spec, u64_bit by lia. rewrite fromtab_bit by auto. f_equal.
  destruct (N.eqb_spec k 0) as [->|NE]; [now rewrite N.shiftl_spec_low by lia|].
  rewrite N.shiftl_spec_high by lia. reflexivity.
Qed.
Lemma hit_bit : forall reg, negb (N.ldiff (2 ^ 64 - 1) (N.lor reg (all_but 5)) =? 0) = negb (N.testbit reg 5).
Proof.
  intros reg. f_equal. rewrite N.lor_comm, <- N.ldiff_ldiff_l. change (N.ldiff (2 ^ 64 - 1) (all_but 5)) with (2 ^ 5).
  destruct (N.testbit reg 5) eqn:E.
  - apply N.eqb_eq. apply N.bits_inj_0. intros k. rewrite N.ldiff_spec, N.pow2_bits_eqb.
    destruct (N.eqb_spec 5 k) as [<-|]; [now rewrite E|reflexivity].
  - apply N.eqb_neq. intros Z. assert (N.testbit (N.ldiff (2 ^ 5) reg) 5 = false) by (now rewrite Z).
    rewrite N.ldiff_spec, E in H. discriminate.
Qed.

Lemma ends_snoc : forall u c p d, ends (u ++ [c]) (p ++ [d]) <-> ends u p /\ c = d.
Proof.
  intros u c p d. split.
  - intros (v & E). rewrite app_assoc in E. apply app_inj_tail in E. destruct E as [-> ->]. split; auto. now exists v.
  - intros [(v & ->) ->]. exists v. now rewrite app_assoc.
Qed.
(* The register tells which beginnings of "\nFrom " the text read so far ends with. *)
Definition tracks (u : bytes) (reg k : N) : Prop := N.testbit reg k = false <-> ends u (firstn (S (N.to_nat k)) nlfrom).
Lemma firstn_snoc : forall k, (k < 6)%nat -> firstn (S k) nlfrom = firstn k nlfrom ++ [nth k nlfrom 0].
Proof. intros k H. do 6 (destruct k as [|k]; [reflexivity|]). lia. Qed.
Lemma step_tracks : forall u reg c, u <> [] -> (forall k, k < 5 -> tracks u reg k) ->
  forall k, k < 6 -> tracks (u ++ [c]) (N.lor (u64 (N.shiftl reg 1)) (fromtab c)) k.
Proof.
  intros u reg c NE T k Hk. unfold tracks. rewrite step_bit by auto. rewrite firstn_snoc by lia. rewrite ends_snoc.
  rewrite orb_false_iff, negb_false_iff, N.eqb_eq. destruct (N.eqb_spec k 0) as [->|NK].
  - cbn [firstn N.to_nat]. split; intros [_ ->]; split; auto. exists u. now rewrite app_nil_r.
  - assert (TK := T (k - 1) ltac:(lia)). unfold tracks in TK. rewrite TK. replace (S (N.to_nat (k - 1))) with (N.to_nat k) by lia. reflexivity.
Qed.
Lemma reset_tracks : forall u k, k < 5 -> tracks (u ++ [ch " "]) (N.lor (u64 (N.shiftl (fromtab 10) 1)) (fromtab (ch " "))) k.
Proof.
  intros u k Hk. unfold tracks. rewrite step_bit by lia. rewrite firstn_snoc by lia. rewrite ends_snoc.
  assert (ch " " <> nth (N.to_nat k) nlfrom 0) as D.
  { assert (k = 0 \/ k = 1 \/ k = 2 \/ k = 3 \/ k = 4) as H by lia. repeat destruct H as [->|H]; try subst k; discriminate. }
  apply N.eqb_neq in D as D'. rewrite D', orb_true_r. split; [discriminate|intros [_ E]; contradiction].
Qed.

Lemma app_len_inj : forall (a b c d : bytes), a ++ b = c ++ d -> length a = length c -> a = c /\ b = d.
Proof.
  induction a as [|x a IH]; intros b [|y c] d E L; cbn in *; try lia; auto.
  injection E as <- E. destruct (IH b c d E) as [-> ->]; auto.
Qed.

Lemma skipn_skipn' : forall (l : bytes) a b, skipn a (skipn b l) = skipn (b + a) l.
Proof. intros l a b. revert l. induction b as [|b IH]; intros l; [reflexivity|]. destruct l; cbn; [now rewrite skipn_nil|apply IH]. Qed.
Lemma nth_error_skipn' : forall (l : bytes) a b, nth_error (skipn b l) a = nth_error l (b + a).
Proof. intros l a b. revert l. induction b as [|b IH]; intros l; [reflexivity|]. destruct l; cbn; [now destruct a|apply IH]. Qed.
Lemma split_nth : forall (l : bytes) i c, nth_error l i = Some c -> l = firstn i l ++ c :: skipn (S i) l.
Proof.
  intros l i. revert l. induction i as [|i IH]; intros [|x l] c H; cbn in H; try discriminate.
  - injection H as ->. reflexivity.
  - cbn [firstn skipn app]. f_equal. now apply IH.
Qed.
Lemma nth_error_len : forall (l : bytes) i c, nth_error l i = Some c -> (i < length l)%nat.
Proof. intros. apply nth_error_Some. congruence. Qed.

Section Find.
Variable from_ok : bytes -> bool.
(* In the text T, whose first byte is a newline, a separator line begins after v ++ newline. *)
Definition sepT (T v : bytes) : Prop := exists rest, T = v ++ nlfrom ++ rest /\ from_ok rest = true.

Lemma from_loop_ok : forall rest u f n reg b T,
  (2 * length rest < f)%nat -> T = u ++ rest -> u <> [] -> n = b + N.of_nat (length u) - 1 ->
  (forall k, k < 5 -> tracks u reg k) ->
  (forall v, sepT T v -> (length u < length v + 6)%nat) ->
  (exists v, from_loop from_ok f n rest reg = Ok (Some (b + N.of_nat (length v))) /\ sepT T v
     /\ forall v', sepT T v' -> (length v <= length v')%nat)
  \/ (from_loop from_ok f n rest reg = Ok None /\ forall v, ~ sepT T v).
Proof.
  induction rest as [|c rest IH]; intros u f n reg b T F HT NE Hn TR OLD; (destruct f as [|f]; [lia|]); cbn [from_loop].
  - right. split; auto. intros v S. assert (L := OLD v S). destruct S as (r & E & _). rewrite HT, app_nil_r in E.
    apply (f_equal (@length N)) in E. rewrite !app_length in E. change (length nlfrom) with 6%nat in E. lia.
  - assert (TR' := step_tracks u reg c NE TR).
    rewrite hit_bit. destruct (N.testbit (N.lor (u64 (N.shiftl reg 1)) (fromtab c)) 5) eqn:B; cbn [negb].
    + apply (IH (u ++ [c])); auto.
      * cbn in F. lia.
      * now rewrite <- app_assoc.
      * destruct u; discriminate.
      * rewrite app_length. cbn [length]. destruct u; [congruence|]. cbn [length] in *. lia.
      * intros k Hk. apply TR'. lia.
      * intros v S. assert (L := OLD v S). rewrite app_length. cbn. destruct (Nat.eq_dec (length u + 1) (length v + 6)); [|lia].
        exfalso. destruct S as (r & E & _). rewrite HT in E. change (c :: rest) with ([c] ++ rest) in E. rewrite !app_assoc in E.
        apply app_len_inj in E; [|rewrite !app_length; cbn; lia]. destruct E as [E _].
        assert (X : ends (u ++ [c]) (firstn (S (N.to_nat 5)) nlfrom)) by (exists v; exact E).
        apply (proj2 (TR' 5 ltac:(lia))) in X. congruence.
    + apply (proj1 (TR' 5 ltac:(lia))) in B. destruct B as (v & E). change (firstn (S (N.to_nat 5)) nlfrom) with nlfrom in E.
      assert (ET : T = v ++ nlfrom ++ rest) by (rewrite HT; change (c :: rest) with ([c] ++ rest); now rewrite !app_assoc, E).
      assert (LU : (length u + 1 = length v + 6)%nat) by (apply (f_equal (@length N)) in E; rewrite !app_length in E; cbn in E; lia).
      destruct (from_ok rest) eqn:FO.
      * left. exists v. split; [|split].
        -- do 2 f_equal. subst n. lia.
        -- exists rest. auto.
        -- intros v' S. specialize (OLD v' S). lia.
      * assert (c = ch " ") as ->.
        { change nlfrom with (firstn 5 nlfrom ++ [ch " "]) in E. rewrite app_assoc in E. now apply app_inj_tail in E. }
        destruct f as [|f]; [cbn in F; lia|]. cbn [from_loop]. rewrite hit_bit.
        change (N.testbit (N.lor (u64 (N.shiftl (fromtab 10) 1)) (fromtab (ch " "))) 5) with true. cbn [negb].
        apply (IH (u ++ [ch " "])); auto.
        -- cbn in F. lia.
        -- now rewrite <- app_assoc.
        -- destruct u; discriminate.
        -- rewrite app_length. cbn [length]. destruct u; [congruence|]. cbn [length] in *. lia.
        -- intros k Hk. now apply reset_tracks.
        -- intros v' S. assert (L := OLD v' S). rewrite app_length. cbn. destruct (Nat.eq_dec (length u + 1) (length v' + 6)); [|lia].
           exfalso. destruct S as (r & E' & FO'). rewrite ET in E'. apply app_len_inj in E'; [|lia]. destruct E' as [_ E'].
           apply app_inv_head in E'. congruence.
Qed.

(* In terms of offsets. *)
Lemma sep_split : forall va b p,
  separator from_ok va b p <-> exists v, sepT (10 :: from va b) v /\ p = b + N.of_nat (length v).
Proof.
  intros va b p. unfold separator, sepT. split.
  - intros [[->|[L E]] (rest & ER & FO)].
    + exists []. split; [|cbn; lia]. exists rest. split; auto. cbn [app nlfrom]. now rewrite ER.
    + set (i := N.to_nat (p - 1 - b)).
      assert (E' : nth_error (from va b) i = Some 10).
      { unfold from. rewrite nth_error_skipn'. rewrite <- E. f_equal. unfold i. lia. }
      exists (10 :: firstn i (from va b)). split.
      * exists rest. split; auto. rewrite (split_nth _ _ _ E') at 1. cbn [app]. unfold nlfrom. cbn [app].
        do 3 f_equal. rewrite <- ER. unfold from. rewrite skipn_skipn'. f_equal. unfold i. lia.
      * cbn [length]. rewrite firstn_length_le by (apply nth_error_len in E'; lia). unfold i. lia.
  - intros (v & (rest & E & FO) & ->). assert (E' := f_equal (@tl N) E). destruct v as [|x v]; cbn [app tl nlfrom] in E'.
    + split; [left; cbn; lia|]. exists rest. split; auto. rewrite <- E'. f_equal. cbn. lia.
    + split.
      * right. split; [cbn [length]; lia|]. replace (N.to_nat (b + N.of_nat (length (x :: v)) - 1)) with (N.to_nat b + length v)%nat by (cbn [length]; lia).
        rewrite <- nth_error_skipn'. change (skipn (N.to_nat b) va) with (from va b). rewrite E'.
        rewrite nth_error_app2 by lia. now rewrite Nat.sub_diag.
      * exists rest. split; auto. unfold from in *. replace (N.to_nat (b + N.of_nat (length (x :: v)))) with (N.to_nat b + S (length v))%nat by (cbn [length]; lia).
        rewrite <- skipn_skipn', E'. rewrite skipn_app, skipn_all2 by lia.
        replace (S (length v) - length v)%nat with 1%nat by lia. reflexivity.
Qed.

Lemma find_next_ok : forall va b, (exists p, find_next_from from_ok b va = Ok (Some p) /\ separator from_ok va b p
     /\ forall q, separator from_ok va b q -> p <= q)
  \/ (find_next_from from_ok b va = Ok None /\ forall q, ~ separator from_ok va b q).
Proof.
  intros va b. unfold find_next_from. fold (from va b).
  destruct (from_loop_ok (from va b) [10] (S (2 * length (from va b))) b (fromtab 10) b (10 :: from va b)) as [(v & E & S & M)|(E & NO)]; auto.
  - discriminate.
  - cbn; lia.
  - intros k Hk. unfold tracks. rewrite fromtab_bit by lia. rewrite negb_false_iff, N.eqb_eq.
    assert (k = 0 \/ k = 1 \/ k = 2 \/ k = 3 \/ k = 4) as H by lia.
    destruct H as [->|H]; [split; [now exists []|reflexivity]|].
    split; [repeat destruct H as [->|H]; try subst k; discriminate|].
    intros (v & E). apply (f_equal (@length N)) in E. rewrite app_length in E. exfalso.
    rewrite firstn_length_le in E by (change (length nlfrom) with 6%nat; lia). cbn [length] in E. lia.
  - intros v (r & _ & _). cbn. lia.
  - left. exists (b + N.of_nat (length v)). split; auto. split; [apply sep_split; eauto|].
    intros q Q. apply sep_split in Q. destruct Q as (v' & S' & ->). specialize (M v' S'). lia.
  - right. split; auto. intros q Q. apply sep_split in Q. destruct Q as (v & S & _). now apply (NO v).
Qed.
End Find.
