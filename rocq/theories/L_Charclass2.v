(* Splitting characters into groups that the classes do not tell apart. *)
From Coq Require Import Permutation Sorted.
From Verif Require Import Base M_Charclass M_Dfasyn M_Compdfa S_Dfasyn L_Charclass.
Local Open Scope nat_scope.

Definition sound_map (x : bitmap) : Prop := wf_map x /\ forall i, i < 8 -> high x i = true -> low x (i * 32 + 31) = true.
Lemma sound_class k : class_chars k -> never_misread k -> sound_map (make_class k).
Proof.
  intros F NM. destruct (make_class_bits k F) as (W & L & H). split; [exact W|]. intros i I Hi. rewrite L by lia. rewrite H in Hi by exact I.
  assert (D : i * 32 + 31 < 256) by lia. pose proof (NM _ D) as M. unfold misread in M. replace ((i * 32 + 31) mod 32 =? 31) with true in M by lia. cbn [andb] in M.
  set (c := i * 32 + 31) in *. clearbody c. destruct k as [s|s|s t]; cbn [upper in_class] in *; unfold in_simple; destruct (caret s), (listed c s); cbn in *; try discriminate; try reflexivity.
  all: destruct (caret t), (listed c t); cbn in *; congruence.
Qed.
Lemma sound_test x c : sound_map x -> c < 256 -> cc_test_bit x c = low x c.
Proof.
  intros [W S] C. rewrite test_low by exact W. destruct (low x c) eqn:E; cbn [orb]; [reflexivity|]. destruct (c mod 32 =? 31) eqn:M; cbn [andb]; [|reflexivity].
  destruct (high x (c / 32)) eqn:H; [|reflexivity]. apply S in H; [|lia]. replace (c / 32 * 32 + 31) with c in H by lia. congruence.
Qed.
Lemma word_nonzero x i : sound_map x -> i < 8 -> nth i x 0%N <> 0%N -> exists j, j < 32 /\ N.testbit (nth i x 0%N) (N.of_nat j) = true.
Proof.
  intros [[L W] S] I H. apply nz_bit in H. destruct H as [k K]. destruct (N.lt_ge_cases k 32) as [G|G].
  - exists (N.to_nat k). split; [lia|]. rewrite N2Nat.id. exact K.
  - exists 31. split; [lia|]. rewrite W in K. replace (k <? 32)%N with false in K by lia. apply andb_true_iff in K. destruct K as [_ K].
    apply S in K; [|exact I]. unfold low in K. replace ((i * 32 + 31) / 32) with i in K by lia. replace ((i * 32 + 31) mod 32) with 31 in K by lia. exact K.
Qed.
Lemma low_at x i j : j < 32 -> low x (i * 32 + j) = N.testbit (nth i x 0%N) (N.of_nat j).
Proof. intros J. unfold low. replace ((i * 32 + j) / 32) with i by lia. replace ((i * 32 + j) mod 32) with j by lia. reflexivity. Qed.
Lemma any_word x : sound_map x -> existsb (fun w => negb (w =? 0)%N) x = true <-> exists c, c < 256 /\ low x c = true.
Proof.
  intros S. pose proof S as [[L W] S']. rewrite existsb_exists. split.
  - intros (w & Iw & Hw). apply (In_nth _ _ 0%N) in Iw. destruct Iw as (i & I & E). rewrite negb_true_iff, N.eqb_neq in Hw. rewrite <- E in Hw.
    destruct (word_nonzero x i S ltac:(lia) Hw) as (j & J & B). exists (i * 32 + j). split; [lia|]. rewrite low_at by exact J. exact B.
  - intros (c & C & E). exists (nth (c / 32) x 0%N). split; [apply nth_In; lia|]. apply neqb_bit. eexists. exact E.
Qed.

(* find_lowest_bit_set finds a bit that is set *)
Definition below (m : N) (v : N) : Prop := exists j, (j < m)%N /\ N.testbit v j = true.
Lemma land_ones v m : (N.land v (N.ones m) =? 0)%N = false <-> below m v.
Proof.
  rewrite <- not_true_iff_false, N.eqb_eq. split.
  - intros H. apply nz_bit in H. destruct H as [k K]. rewrite N.land_spec in K. apply andb_true_iff in K. destruct K as [K1 K2].
    exists k. split; [|exact K1]. destruct (N.lt_ge_cases k m); [assumption|]. rewrite N.ones_spec_high in K2 by assumption. discriminate.
  - intros (k & K & B). apply nz_bit. exists k. rewrite N.land_spec, B, N.ones_spec_low by exact K. reflexivity.
Qed.
Definition lstep (m : N) (n : nat) (pv : nat * N) : nat * N := if (N.land (snd pv) m =? 0)%N then ((fst pv + n)%nat, N.shiftr (snd pv) (N.of_nat n)) else pv.
Lemma lstep_ok n p v : below (2 * N.of_nat n) v -> below (N.of_nat n) (snd (lstep (N.ones (N.of_nat n)) n (p, v))) /\
  (fst (lstep (N.ones (N.of_nat n)) n (p, v)) = p \/ fst (lstep (N.ones (N.of_nat n)) n (p, v)) = p + n) /\
  (forall k, N.testbit (snd (lstep (N.ones (N.of_nat n)) n (p, v))) k = N.testbit v (k + N.of_nat (fst (lstep (N.ones (N.of_nat n)) n (p, v)) - p))).
Proof.
  intros B. unfold lstep. cbn [fst snd]. destruct (N.land v (N.ones (N.of_nat n)) =? 0)%N eqn:E; cbn [fst snd].
  - split; [|split; [auto|]].
    + destruct B as (j & J & T). destruct (N.lt_ge_cases j (N.of_nat n)) as [G|G].
      * exfalso. assert (X : below (N.of_nat n) v) by (exists j; auto). apply land_ones in X. congruence.
      * exists (j - N.of_nat n)%N. split; [lia|]. rewrite N.shiftr_spec by lia. replace (j - N.of_nat n + N.of_nat n)%N with j by lia. exact T.
    + intros k. rewrite N.shiftr_spec by lia. f_equal. lia.
  - split; [apply land_ones; exact E|]. split; [auto|]. intros k. f_equal. lia.
Qed.
Lemma lowest_in_ok v : below 32 v -> lowest_in v < 32 /\ N.testbit v (N.of_nat (lowest_in v)) = true.
Proof.
  intros B.
  change (lowest_in v) with (let pv := lstep 3 2 (lstep 15 4 (lstep 255 8 (lstep 65535 16 (O, v)))) in if (N.land (snd pv) 1 =? 0)%N then fst pv + 1 else fst pv).
  cbv zeta.
  destruct (lstep_ok 16 0 v B) as (B1 & P1 & K1). change (N.ones (N.of_nat 16)) with 65535%N in *. destruct (lstep 65535 16 (0, v)) as [p1 v1]. cbn [fst snd] in *.
  destruct (lstep_ok 8 p1 v1 B1) as (B2 & P2 & K2). change (N.ones (N.of_nat 8)) with 255%N in *. destruct (lstep 255 8 (p1, v1)) as [p2 v2]. cbn [fst snd] in *.
  destruct (lstep_ok 4 p2 v2 B2) as (B3 & P3 & K3). change (N.ones (N.of_nat 4)) with 15%N in *. destruct (lstep 15 4 (p2, v2)) as [p3 v3]. cbn [fst snd] in *.
  destruct (lstep_ok 2 p3 v3 B3) as (B4 & P4 & K4). change (N.ones (N.of_nat 2)) with 3%N in *. destruct (lstep 3 2 (p3, v3)) as [p4 v4]. cbn [fst snd] in *.
  assert (T : forall k, N.testbit v4 k = N.testbit v (k + N.of_nat p4)).
  { intros k. rewrite K4, K3, K2, K1. f_equal. lia. }
  assert (Q : p4 <= 30) by lia. clear - T Q B4.
  destruct B4 as (j & J & X). destruct (N.land v4 1 =? 0)%N eqn:E.
  - split; [lia|]. assert (j = 1%N \/ j = 0%N) as [->| ->] by lia.
    + rewrite T in X. rewrite <- X. f_equal. lia.
    + exfalso. change 1%N with (N.ones 1) in E. assert (Y : below 1 v4) by (exists 0%N; split; [lia|exact X]). apply land_ones in Y. congruence.
  - split; [lia|]. change 1%N with (N.ones 1) in E. apply land_ones in E. destruct E as (i & I & Y). replace i with 0%N in Y by lia. rewrite T in Y. rewrite <- Y. f_equal.
Qed.
Lemma find_lowest_ok : forall x i c, find_lowest i x = Some c -> exists k, k < length x /\ c = (i + k) * 32 + lowest_in (nth k x 0%N) /\ nth k x 0%N <> 0%N.
Proof.
  induction x as [|w x IH]; intros i c H; cbn [find_lowest] in H; [discriminate|]. destruct (w =? 0)%N eqn:E.
  - apply IH in H. destruct H as (k & K & -> & Z). exists (S k). cbn. split; [lia|]. split; [f_equal; f_equal; lia|exact Z].
  - injection H as <-. exists 0. cbn. split; [lia|]. split; [f_equal; f_equal; lia|]. lia.
Qed.
Lemma lowest_ok x c : sound_map x -> find_lowest_bit_set x = Some c -> c < 256 /\ low x c = true.
Proof.
  intros S H. apply find_lowest_ok in H. destruct H as (k & K & -> & Z). pose proof S as [[L W] S']. cbn [Nat.add].
  destruct (word_nonzero x k S ltac:(lia) Z) as (j & J & B). destruct (lowest_in_ok (nth k x 0%N)) as [Q T].
  { exists (N.of_nat j). split; [lia|exact B]. }
  split; [lia|]. rewrite low_at by exact Q. exact T.
Qed.
Lemma find_lowest_none : forall x i, find_lowest i x = None -> forall k, nth k x 0%N = 0%N.
Proof. induction x as [|w x IH]; intros i H k; cbn [find_lowest] in H; [destruct k; reflexivity|]. destruct (w =? 0)%N eqn:E; [|discriminate]. destruct k; cbn; [lia|eapply IH; exact H]. Qed.
Lemma lowest_none x c : find_lowest_bit_set x = None -> low x c = false.
Proof. intros H. unfold low. rewrite (find_lowest_none _ _ H). apply N.bits_0. Qed.

(* the group of a character *)
Definition alike (ccs : list bitmap) (c d : nat) : bool := forallb (fun x => Bool.eqb (low x c) (low x d)) ccs.
Lemma alike_spec ccs c d : alike ccs c d = true <-> forall x, In x ccs -> low x c = low x d.
Proof. unfold alike. rewrite forallb_forall. split; intros H x I; specialize (H x I); [apply Bool.eqb_prop in H|rewrite H; apply Bool.eqb_reflx]; assumption. Qed.
Lemma group_fold first : first < 256 -> forall ccs pos neg, Forall sound_map ccs -> wf_map pos -> wf_map neg -> (forall i, high pos i = false) ->
  let pn := fold_left (fun (pn : bitmap * bitmap) x => if cc_test_bit x first then (words N.land (fst pn) x, snd pn) else (fst pn, combine (snd pn) x)) ccs (pos, neg) in
  wf_map (fst pn) /\ wf_map (snd pn) /\ (forall i, high (fst pn) i = false) /\
  (forall c, low (fst pn) c && negb (low (snd pn) c) = low pos c && negb (low neg c) && alike ccs c first).
Proof.
  intros F. induction ccs as [|x ccs IH]; intros pos neg S Wp Wn Hp; cbn [fold_left].
  - repeat (split; [assumption|]). intros c. cbn. rewrite andb_true_r. reflexivity.
  - inversion S as [|? ? Sx Sc]; subst. rewrite sound_test by assumption. pose proof (proj1 Sx) as Wx.
    assert (Lp : length pos = length x) by (destruct Wp, Wx; lia). assert (Ln : length neg = length x) by (destruct Wn, Wx; lia).
    destruct (low x first) eqn:E; cbn [fst snd].
    + destruct (IH (words N.land pos x) neg Sc) as (A & B & C & D).
      * apply wf_words; auto using wf_land.
      * exact Wn.
      * intros i. rewrite (high_words N.land andb) by (reflexivity || exact Lp || apply N.land_spec). rewrite Hp. reflexivity.
      * repeat (split; [assumption|]). intros c. rewrite D. rewrite (low_words N.land andb) by (reflexivity || exact Lp || apply N.land_spec).
        cbn [alike forallb]. rewrite E. fold (alike ccs c first). destruct (low pos c), (low x c), (low neg c); reflexivity.
    + destruct (IH pos (combine neg x) Sc) as (A & B & C & D).
      * exact Wp.
      * apply wf_words; auto using wf_lor.
      * exact Hp.
      * repeat (split; [assumption|]). intros c. rewrite D. unfold combine. rewrite (low_words N.lor orb) by (reflexivity || exact Ln || apply N.lor_spec).
        cbn [alike forallb]. rewrite E. fold (alike ccs c first). destruct (low pos c), (low x c), (low neg c); reflexivity.
Qed.
Lemma group_ok ccs first : first < 256 -> Forall sound_map ccs ->
  sound_map (group_of ccs first) /\ forall c, c < 256 -> low (group_of ccs first) c = alike ccs c first.
Proof.
  intros F S. unfold group_of. destruct (group_fold first F ccs set_all clear_all S wf_set_all wf_clear_all high_set_all) as (A & B & C & D).
  destruct (fold_left _ ccs _) as [pos neg]. cbn [fst snd] in *. assert (L : length pos = length neg) by (destruct A, B; lia). split.
  - split; [apply wf_words; auto using wf_ldiff|]. intros i I. rewrite (high_words N.ldiff (fun a b => a && negb b)) by (reflexivity || exact L || apply N.ldiff_spec). rewrite C. discriminate.
  - intros c Hc. rewrite (low_words N.ldiff (fun a b => a && negb b)) by (reflexivity || exact L || apply N.ldiff_spec). rewrite D, low_set_all, low_clear_all by exact Hc. reflexivity.
Qed.

Lemma sound_clear x c : c < 256 -> sound_map x -> sound_map (clear_bit x c).
Proof.
  intros C [W S]. split; [apply wf_clear; assumption|]. intros i I. destruct W as [L W]. rewrite high_clear, low_clear by assumption.
  rewrite !andb_true_iff, !negb_true_iff. intros [H N]. split; [apply S; assumption|]. lia.
Qed.
Lemma sound_combine x y : sound_map x -> sound_map y -> sound_map (combine x y).
Proof.
  intros [W S] [W' S']. assert (L : length x = length y) by (destruct W, W'; lia). split; [apply wf_words; auto using wf_lor|]. intros i I. unfold combine.
  rewrite (high_words N.lor orb), (low_words N.lor orb) by (reflexivity || exact L || apply N.lor_spec). rewrite !orb_true_iff. intros [H|H]; [left|right]; auto.
Qed.
Lemma sound_zero : sound_map clear_all.
Proof. split; [exact wf_clear_all|]. intros i I. rewrite high_clear_all. discriminate. Qed.
Lemma union_ok : forall ccs x, Forall sound_map ccs -> sound_map x -> sound_map (fold_left combine ccs x) /\ forall c, low (fold_left combine ccs x) c = low x c || existsb (fun y => low y c) ccs.
Proof.
  induction ccs as [|y ccs IH]; intros x F S; cbn [fold_left existsb].
  - split; [exact S|]. intros c. rewrite orb_false_r. reflexivity.
  - inversion F as [|? ? Fy Fc]; subst. destruct (IH (combine x y) Fc (sound_combine _ _ S Fy)) as [A B]. split; [exact A|]. intros c. rewrite B. unfold combine.
    rewrite (low_words N.lor orb) by (reflexivity || apply N.lor_spec || (destruct S as [[? ?] ?], Fy as [[? ?] ?]; lia)). rewrite orb_assoc. reflexivity.
Qed.

(* giving a group its number *)
Lemma assign_fold pos n : sound_map pos -> forall k a mu, a + k <= 256 -> length (fst mu) = 256 -> sound_map (snd mu) ->
  let mu' := fold_left (fun (mu : list Z * bitmap) i => if cc_test_bit pos i then (set_nth (fst mu) i (Z.of_nat n), clear_bit (snd mu) i) else mu) (seq a k) mu in
  length (fst mu') = 256 /\ sound_map (snd mu') /\
  (forall c, nth c (fst mu') (-1)%Z = if (a <=? c) && (c <? a + k) && low pos c then Z.of_nat n else nth c (fst mu) (-1)%Z) /\
  (forall c, low (snd mu') c = low (snd mu) c && negb ((a <=? c) && (c <? a + k) && low pos c)).
Proof.
  intros P. induction k as [|k IH]; intros a mu L Lm Su; cbn [seq fold_left].
  - cbv zeta. split; [exact Lm|]. split; [exact Su|]. split; intros c.
    + replace ((a <=? c) && (c <? a + 0)) with false by lia. reflexivity.
    + replace ((a <=? c) && (c <? a + 0)) with false by lia. cbn. rewrite andb_true_r. reflexivity.
  - rewrite sound_test by (assumption || lia). destruct (low pos a) eqn:E.
    + destruct (IH (S a) (set_nth (fst mu) a (Z.of_nat n), clear_bit (snd mu) a)) as (A & B & C & D).
      * lia.
      * cbn [fst]. rewrite cc_set_len. exact Lm.
      * cbn [snd]. apply sound_clear; [lia|exact Su].
      * cbv zeta. cbn [fst snd] in *. split; [exact A|]. split; [exact B|]. destruct Su as [[Ls _] _]. split; intros c; [rewrite C, cc_set_nth by lia|rewrite D, low_clear by lia].
        -- destruct (Nat.eqb_spec a c) as [->|N].
           ++ rewrite E. replace ((S c <=? c) && (c <? S c + k)) with false by lia. replace ((c <=? c) && (c <? c + S k)) with true by lia. reflexivity.
           ++ replace ((a <=? c) && (c <? a + S k)) with ((S a <=? c) && (c <? S a + k)) by lia. reflexivity.
        -- destruct (Nat.eqb_spec c a) as [->|N].
           ++ rewrite E. replace ((a <=? a) && (a <? a + S k)) with true by lia. cbn [negb andb]. rewrite !andb_false_r. reflexivity.
           ++ replace ((a <=? c) && (c <? a + S k)) with ((S a <=? c) && (c <? S a + k)) by lia. cbn [negb]. rewrite andb_true_r. reflexivity.
    + destruct (IH (S a) mu) as (A & B & C & D); try assumption; try lia. cbv zeta. split; [exact A|]. split; [exact B|]. split; intros c; [rewrite C|rewrite D].
      * destruct (Nat.eqb_spec c a) as [->|N]; [rewrite E, !andb_false_r; reflexivity|]. replace ((a <=? c) && (c <? a + S k)) with ((S a <=? c) && (c <? S a + k)) by lia. reflexivity.
      * destruct (Nat.eqb_spec c a) as [->|N]; [rewrite E, !andb_false_r; reflexivity|]. replace ((a <=? c) && (c <? a + S k)) with ((S a <=? c) && (c <? S a + k)) by lia. reflexivity.
Qed.
Lemma assign_ok pos n m u : sound_map pos -> length m = 256 -> sound_map u ->
  let mu := assign_group pos n (m, u) in
  length (fst mu) = 256 /\ sound_map (snd mu) /\ (forall c, c < 256 -> nth c (fst mu) (-1)%Z = if low pos c then Z.of_nat n else nth c m (-1)%Z) /\
  (forall c, c < 256 -> low (snd mu) c = low u c && negb (low pos c)).
Proof.
  intros P L S. destruct (assign_fold pos n P 256 0 (m, u) ltac:(lia) L S) as (A & B & C & D). cbv zeta in *. unfold assign_group. cbn [fst snd] in *.
  split; [exact A|]. split; [exact B|]. split; intros c Hc; [rewrite C|rewrite D]; replace ((0 <=? c) && (c <? 0 + 256)) with true by lia; reflexivity.
Qed.

Definition counted (x : bitmap) : nat := length (filter (low x) (seq 0 256)).
Lemma filter_less {A} (p q : A -> bool) l a : (forall x, q x = true -> p x = true) -> In a l -> p a = true -> q a = false -> S (length (filter q l)) <= length (filter p l).
Proof.
  intros H I Pa Qa. apply in_split in I. destruct I as (l1 & l2 & ->). rewrite !filter_app, !app_length. cbn [filter]. rewrite Pa, Qa. cbn [length].
  assert (M : forall l, length (filter q l) <= length (filter p l)).
  { clear l1 l2. induction l as [|x l IH]; cbn; [lia|]. destruct (q x) eqn:E; [rewrite (H _ E); cbn; lia|]. destruct (p x); cbn; lia. }
  pose proof (M l1). pose proof (M l2). lia.
Qed.

(* the loop: what has been numbered so far, and what has not *)
Record progress (ccs : list bitmap) (u : bitmap) (m : list Z) (n : nat) : Prop := {
  pg_len : length m = 256;
  pg_sound : sound_map u;
  pg_rest : forall c, c < 256 -> low u c = existsb (fun y => low y c) ccs && (nth c m (-1)%Z =? -1)%Z;
  pg_range : forall c, c < 256 -> (-1 <= nth c m (-1)%Z < Z.of_nat n)%Z;
  pg_none : forall c, c < 256 -> nth c m (-1)%Z <> (-1)%Z -> existsb (fun y => low y c) ccs = true;
  pg_alike : forall c d, c < 256 -> d < 256 -> nth c m (-1)%Z <> (-1)%Z -> (nth d m (-1)%Z = nth c m (-1)%Z <-> alike ccs d c = true);
  pg_used : forall i, i < n -> exists c, c < 256 /\ nth c m (-1)%Z = Z.of_nat i;
  pg_count : n + counted u <= 256 }.
Lemma alike_refl ccs c : alike ccs c c = true. Proof. apply alike_spec. auto. Qed.
Lemma alike_sym ccs c d : alike ccs c d = alike ccs d c.
Proof. apply eq_true_iff_eq. rewrite !alike_spec. split; intros H x I; rewrite (H x I); reflexivity. Qed.
Lemma alike_trans ccs c d e : alike ccs c d = true -> alike ccs d e = true -> alike ccs c e = true.
Proof. rewrite !alike_spec. intros A B x I. rewrite (A x I). auto. Qed.
Lemma alike_in ccs c d : alike ccs c d = true -> existsb (fun y => low y c) ccs = existsb (fun y => low y d) ccs.
Proof.
  rewrite alike_spec. intros H. apply eq_true_iff_eq. rewrite !existsb_exists. split; intros (x & I & T); exists x; split; auto; [rewrite <- (H x I)|rewrite (H x I)]; exact T.
Qed.
Lemma progress_step ccs u m n first : Forall sound_map ccs -> progress ccs u m n -> first < 256 -> low u first = true ->
  let mu := assign_group (group_of ccs first) n (m, u) in progress ccs (snd mu) (fst mu) (S n) /\ counted (snd mu) < counted u.
Proof.
  intros So P F E. destruct (group_ok ccs first F So) as [Gs G]. destruct (assign_ok _ n m u Gs (pg_len _ _ _ _ P) (pg_sound _ _ _ _ P)) as (A & B & C & D). cbv zeta in *.
  set (mu := assign_group (group_of ccs first) n (m, u)) in *.
  assert (C' : forall c, c < 256 -> nth c (fst mu) (-1)%Z = if alike ccs c first then Z.of_nat n else nth c m (-1)%Z) by (intros c Hc; rewrite C, G by exact Hc; reflexivity).
  assert (D' : forall c, c < 256 -> low (snd mu) c = low u c && negb (alike ccs c first)) by (intros c Hc; rewrite D, G by exact Hc; reflexivity).
  clear C D G. pose proof (pg_rest _ _ _ _ P first F) as E'. rewrite E in E'. symmetry in E'. apply andb_true_iff in E'. destruct E' as [Ef Em]. apply Z.eqb_eq in Em.
  assert (NM : forall c, c < 256 -> nth c m (-1)%Z <> (-1)%Z -> alike ccs c first = false).
  { intros c Hc N. destruct (alike ccs c first) eqn:Q; [|reflexivity]. rewrite alike_sym in Q. pose proof (proj2 (pg_alike _ _ _ _ P c first Hc F N) Q). lia. }
  assert (K : S (counted (snd mu)) <= counted u).
  { unfold counted. rewrite (filter_ext_in (low (snd mu)) (fun c => low u c && negb (alike ccs c first))) by (intros c I; apply in_seq in I; apply D'; lia).
    apply filter_less with (a := first); [intros x; rewrite andb_true_iff; tauto|apply in_seq; lia|exact E|rewrite alike_refl, andb_false_r; reflexivity]. }
  split; [|exact K]. constructor.
  - exact A.
  - exact B.
  - intros c Hc. rewrite D', C' by exact Hc. rewrite (pg_rest _ _ _ _ P c Hc). destruct (alike ccs c first); cbn.
    + rewrite andb_false_r. replace (Z.of_nat n =? -1)%Z with false by lia. rewrite andb_false_r. reflexivity.
    + rewrite andb_true_r. reflexivity.
  - intros c Hc. rewrite C' by exact Hc. pose proof (pg_range _ _ _ _ P c Hc). destruct (alike ccs c first); lia.
  - intros c Hc. rewrite C' by exact Hc. destruct (alike ccs c first) eqn:Q; [|apply (pg_none _ _ _ _ P c Hc)]. intros _. rewrite (alike_in _ _ _ Q). exact Ef.
  - intros c d Hc Hd. rewrite !C' by assumption. destruct (alike ccs c first) eqn:Qc, (alike ccs d first) eqn:Qd; intros N.
    + split; [|reflexivity]. intros _. rewrite alike_sym in Qc. exact (alike_trans _ _ _ _ Qd Qc).
    + split.
      * pose proof (pg_range _ _ _ _ P d Hd). lia.
      * intros Q. rewrite (alike_trans _ _ _ _ Q Qc) in Qd. discriminate.
    + pose proof (pg_range _ _ _ _ P c Hc). split; [lia|]. intros Q. rewrite alike_sym in Q. rewrite (alike_trans _ _ _ _ Q Qd) in Qc. discriminate.
    + apply (pg_alike _ _ _ _ P); assumption.
  - intros i I. destruct (Nat.eq_dec i n) as [->|N].
    + exists first. split; [exact F|]. rewrite C', alike_refl by exact F. reflexivity.
    + destruct (pg_used _ _ _ _ P i ltac:(lia)) as (c & Hc & Q). exists c. split; [exact Hc|]. rewrite C' by exact Hc. rewrite NM by (assumption || lia). exact Q.
  - pose proof (pg_count _ _ _ _ P). lia.
Qed.
Lemma split_loop_ok ccs : Forall sound_map ccs -> forall f u m n, progress ccs u m n -> counted u < f -> (exists c, c < 256 /\ low u c = true) ->
  exists m' n', M_Charclass.split_loop f ccs u m n = Ok (m', n') /\ progress ccs clear_all m' n'.
Proof.
  intros So. induction f as [|f IH]; intros u m n P K X; [lia|]. cbn [M_Charclass.split_loop].
  destruct (find_lowest_bit_set u) as [first|] eqn:E.
  2:{ destruct X as (c & _ & X). rewrite (lowest_none _ _ E) in X. discriminate. }
  destruct (lowest_ok _ _ (pg_sound _ _ _ _ P) E) as [F T].
  destruct (progress_step ccs u m n first So P F T) as [P' K'].
  replace (256 <=? n) with false by (pose proof (pg_count _ _ _ _ P); lia).
  destruct (assign_group (group_of ccs first) n (m, u)) as [m1 u1]. cbn [fst snd] in *.
  destruct (existsb (fun w => negb (w =? 0)%N) u1) eqn:Q.
  - apply (any_word _ (pg_sound _ _ _ _ P')) in Q. apply IH; [exact P'|lia|exact Q].
  - exists m1, (S n). split; [reflexivity|].
    assert (Z : forall c, c < 256 -> low u1 c = false).
    { intros c Hc. destruct (low u1 c) eqn:Y; [|reflexivity]. assert (W : existsb (fun w => negb (w =? 0)%N) u1 = true) by (apply (any_word _ (pg_sound _ _ _ _ P')); eauto). congruence. }
    destruct P'. constructor; auto.
    + exact sound_zero.
    + intros c Hc. rewrite low_clear_all. rewrite <- pg_rest0 by exact Hc. symmetry. apply Z. exact Hc.
    + assert (Y : counted clear_all = 0). { unfold counted. rewrite (filter_ext_in _ (fun _ => false)) by (intros; apply low_clear_all). clear. generalize (seq 0 256). induction l; auto. }
      lia.
Qed.
Lemma filter_le {A} (p : A -> bool) l : length (filter p l) <= length l.
Proof. induction l as [|a l IH]; cbn; [lia|]. destruct (p a); cbn; lia. Qed.
(* The result of split_charclasses. *)
Record groups (ccs : list bitmap) (m : list Z) (n : nat) : Prop := {
  gr_len : length m = 256;
  gr_range : forall c, c < 256 -> (-1 <= nth c m (-1)%Z < Z.of_nat n)%Z;
  gr_none : forall c, c < 256 -> (nth c m (-1)%Z = (-1)%Z <-> forall x, In x ccs -> low x c = false);
  gr_alike : forall c d, c < 256 -> d < 256 -> nth c m (-1)%Z <> (-1)%Z -> (nth d m (-1)%Z = nth c m (-1)%Z <-> forall x, In x ccs -> low x c = low x d);
  gr_used : forall i, i < n -> exists c, c < 256 /\ nth c m (-1)%Z = Z.of_nat i;
  gr_count : n <= 256 }.
Lemma split_ok ccs : Forall sound_map ccs -> ccs = [] \/ (exists c x, c < 256 /\ In x ccs /\ low x c = true) -> exists m n, split_charclasses ccs = Ok (m, n) /\ groups ccs m n.
Proof.
  intros S X. destruct ccs as [|x0 ccs].
  - exists (repeat (-1)%Z 256), 0. split; [reflexivity|]. assert (R : forall c, c < 256 -> nth c (repeat (-1)%Z 256) (-1)%Z = (-1)%Z) by (intros; apply nth_repeat_in; assumption).
    constructor.
    + apply repeat_length.
    + intros c C. rewrite R by exact C. lia.
    + intros c C. rewrite R by exact C. split; [intros _ x []|reflexivity].
    + intros c d C D N. rewrite R in N by exact C. congruence.
    + intros i I. lia.
    + lia.
  - destruct X as [X|X]; [discriminate|]. unfold split_charclasses. set (l := x0 :: ccs) in *.
    destruct (union_ok l clear_all S sound_zero) as [U V].
    destruct (split_loop_ok l S 300 (fold_left combine l clear_all) (repeat (-1)%Z 256) 0) as (m & n & E & P).
    + assert (R : forall c, c < 256 -> nth c (repeat (-1)%Z 256) (-1)%Z = (-1)%Z) by (intros; apply nth_repeat_in; assumption). constructor.
      * apply repeat_length.
      * exact U.
      * intros c C. rewrite V, low_clear_all, R by exact C. cbn. rewrite andb_true_r. reflexivity.
      * intros c C. rewrite R by exact C. lia.
      * intros c C. rewrite R by exact C. congruence.
      * intros c d C D. rewrite R by exact C. congruence.
      * intros i I. lia.
      * unfold counted. etransitivity; [apply Nat.add_le_mono_l, filter_le|]. rewrite seq_length. lia.
    + unfold counted. assert (length (filter (low (fold_left combine l clear_all)) (seq 0 256)) <= 256) by (etransitivity; [apply filter_le|rewrite seq_length; lia]). lia.
    + destruct X as (c & x & C & I & T). exists c. split; [exact C|]. rewrite V, low_clear_all. cbn [orb]. apply existsb_exists. eauto.
    + exists m, n. split; [exact E|]. destruct P. constructor; auto; try lia.
      * intros c C. specialize (pg_rest0 c C). rewrite low_clear_all in pg_rest0. split.
        -- intros Q x I. rewrite Q, Z.eqb_refl in pg_rest0. rewrite andb_true_r in pg_rest0. destruct (low x c) eqn:Y; [|reflexivity].
           symmetry in pg_rest0. rewrite <- not_true_iff_false in pg_rest0. exfalso. apply pg_rest0. apply existsb_exists. eauto.
        -- intros H. destruct (Z.eq_dec (nth c m (-1)%Z) (-1)) as [Q|Q]; [exact Q|]. exfalso. specialize (pg_none0 c C Q). apply existsb_exists in pg_none0. destruct pg_none0 as (x & I & T). rewrite (H x I) in T. discriminate.
      * intros c d C D N. rewrite pg_alike0 by assumption. rewrite alike_sym. apply alike_spec.
Qed.
Lemma split_empty ccs : Forall sound_map ccs -> ccs <> [] -> (forall x c, In x ccs -> c < 256 -> low x c = false) -> split_charclasses ccs = Err E_oob.
Proof.
  intros S N H. destruct ccs as [|x0 ccs]; [congruence|]. unfold split_charclasses. set (l := x0 :: ccs) in *. destruct (union_ok l clear_all S sound_zero) as [U V].
  cbn [M_Charclass.split_loop]. destruct (find_lowest_bit_set _) as [c|] eqn:E; [|reflexivity]. destruct (lowest_ok _ _ U E) as [C T]. rewrite V, low_clear_all in T. cbn [orb] in T.
  apply existsb_exists in T. destruct T as (x & I & T). rewrite H in T by assumption. discriminate.
Qed.
