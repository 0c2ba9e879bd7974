(* Character classes as bit maps: which bits are set. *)
From Coq Require Import Permutation Sorted.
From Verif Require Import Base M_Charclass M_Dfasyn M_Compdfa S_Dfasyn.
Local Open Scope nat_scope.

Lemma cc_set_len {A} (l : list A) : forall i x, length (set_nth l i x) = length l.
Proof. induction l; intros [|i] x; cbn; auto. Qed.
Lemma cc_set_nth {A} (l : list A) : forall i x j d, i < length l -> nth j (set_nth l i x) d = if i =? j then x else nth j l d.
Proof. induction l as [|a l IH]; intros [|i] x [|j] d L; cbn in *; try lia; auto. rewrite IH by lia. reflexivity. Qed.
Lemma nth_words f : forall x y i, length x = length y -> f 0%N 0%N = 0%N -> nth i (words f x y) 0%N = f (nth i x 0%N) (nth i y 0%N).
Proof. induction x as [|a x IH]; intros [|b y] i L Z; cbn in L; try lia; destruct i; cbn; auto. Qed.
Lemma len_words f : forall x y, length x = length y -> length (words f x y) = length x.
Proof. induction x as [|a x IH]; intros [|b y] L; cbn in L; try lia; cbn; auto. Qed.

Lemma mask31 : mask 31 = N.shiftl (N.ones 33) 31.
Proof. reflexivity. Qed.
Lemma mask_bit j k : j < 32 -> N.testbit (mask j) k = if (j =? 31) then ((31 <=? k) && (k <? 64))%N else (k =? N.of_nat j)%N.
Proof.
  intros L. unfold mask. destruct (j =? 31) eqn:E.
  - change (2 ^ 64 - 2 ^ 31)%N with (N.shiftl (N.ones 33) 31). destruct (N.le_gt_cases 31 k) as [H|H].
    + rewrite N.shiftl_spec_high' by lia. destruct (N.lt_ge_cases (k - 31) 33) as [G|G].
      * rewrite N.ones_spec_low by lia. lia.
      * rewrite N.ones_spec_high by lia. lia.
    + rewrite N.shiftl_spec_low by lia. lia.
  - rewrite N.pow2_bits_eqb. apply N.eqb_sym.
Qed.
Lemma nz_bit a : a <> 0%N <-> exists k, N.testbit a k = true.
Proof.
  split.
  - intros H. exists (N.log2 a). apply N.bit_log2. exact H.
  - intros [k K] ->. rewrite N.bits_0 in K. discriminate.
Qed.
Lemma neqb_bit a : negb (a =? 0)%N = true <-> exists k, N.testbit a k = true.
Proof. rewrite <- nz_bit. rewrite negb_true_iff, N.eqb_neq. tauto. Qed.

(* A word: bits 32 to 63 are alike. *)
Definition wf_word (w : N) : Prop := forall k, N.testbit w k = if (k <? 32)%N then N.testbit w k else ((k <? 64)%N && N.testbit w 32).
Definition wf_map (x : bitmap) : Prop := length x = 8 /\ forall i, wf_word (nth i x 0%N).
Definition low (x : bitmap) (c : nat) : bool := N.testbit (nth (c / 32) x 0%N) (N.of_nat (c mod 32)).
Definition high (x : bitmap) (i : nat) : bool := N.testbit (nth i x 0%N) 32.

Lemma test_low x c : wf_map x -> cc_test_bit x c = low x c || ((c mod 32 =? 31) && high x (c / 32)).
Proof.
  intros [L W]. unfold cc_test_bit, low, high, word_at. specialize (W (c / 32)). set (w := nth (c / 32) x 0%N) in *. clearbody w.
  pose proof (Nat.mod_upper_bound c 32 ltac:(lia)) as J. set (j := c mod 32) in *. clearbody j.
  apply eq_true_iff_eq. rewrite neqb_bit. setoid_rewrite N.land_spec. setoid_rewrite (mask_bit j _ J). rewrite orb_true_iff, andb_true_iff.
  split.
  - intros [k K]. apply andb_true_iff in K. destruct K as [K1 K2]. destruct (j =? 31) eqn:E.
    + rewrite W in K1. destruct (k <? 32)%N eqn:Q; [left|right; split; [reflexivity|]].
      * replace (N.of_nat j) with k by lia. exact K1.
      * apply andb_true_iff in K1; apply K1.
    + apply N.eqb_eq in K2. subst k. auto.
  - intros [K|[E K]].
    + exists (N.of_nat j). rewrite K. cbn. destruct (j =? 31) eqn:E; lia.
    + exists 32%N. rewrite K, E. reflexivity.
Qed.

Lemma wf_lor a b : wf_word a -> wf_word b -> wf_word (N.lor a b).
Proof. intros A B k. rewrite !N.lor_spec. rewrite (A k), (B k). destruct (k <? 32)%N, (k <? 64)%N; reflexivity. Qed.
Lemma wf_land a b : wf_word a -> wf_word b -> wf_word (N.land a b).
Proof. intros A B k. rewrite !N.land_spec. rewrite (A k), (B k). destruct (k <? 32)%N, (k <? 64)%N; reflexivity. Qed.
Lemma wf_ldiff a b : wf_word a -> wf_word b -> wf_word (N.ldiff a b).
Proof. intros A B k. rewrite !N.ldiff_spec. rewrite (A k), (B k). destruct (k <? 32)%N, (k <? 64)%N; reflexivity. Qed.
Lemma wf_mask j : j < 32 -> wf_word (mask j).
Proof. intros L k. rewrite !mask_bit by exact L. destruct (j =? 31) eqn:E, (k <? 32)%N eqn:F, (k <? 64)%N eqn:G; lia. Qed.
Lemma low32 k : N.testbit (2 ^ 32 - 1) k = (k <? 32)%N.
Proof. change (2 ^ 32 - 1)%N with (N.ones 32). destruct (N.lt_ge_cases k 32); [rewrite N.ones_spec_low by lia|rewrite N.ones_spec_high by lia]; lia. Qed.
Lemma wf_inv a : wf_word a -> wf_word (N.lxor a (2 ^ 32 - 1)).
Proof. intros A k. rewrite !N.lxor_spec, !low32. rewrite (A k). destruct (k <? 32)%N, (k <? 64)%N; cbn; rewrite ?xorb_false_r; reflexivity. Qed.
Lemma wf_0 : wf_word 0.
Proof. intros k. rewrite !N.bits_0. destruct (k <? 32)%N, (k <? 64)%N; reflexivity. Qed.
Lemma wf_ones : wf_word (2 ^ 32 - 1).
Proof. intros k. rewrite !low32. destruct (k <? 32)%N, (k <? 64)%N; reflexivity. Qed.
Lemma nth_repeat_in {A} (a d : A) n i : i < n -> nth i (repeat a n) d = a.
Proof. revert i. induction n; intros [|i] L; cbn; try lia; auto. apply IHn. lia. Qed.

Lemma wf_words f x y : f 0%N 0%N = 0%N -> (forall a b, wf_word a -> wf_word b -> wf_word (f a b)) -> wf_map x -> wf_map y -> wf_map (words f x y).
Proof. intros Z H [Lx Wx] [Ly Wy]. split; [rewrite len_words; lia|]. intros i. rewrite nth_words by lia || assumption. auto. Qed.
Lemma c_low c : c < 256 -> c / 32 < 8 /\ c mod 32 < 32. Proof. lia. Qed.
Lemma wf_set x c : c < 256 -> wf_map x -> wf_map (set_bit x c).
Proof.
  intros C [L W]. split; [unfold set_bit; rewrite cc_set_len; exact L|]. intros i. unfold set_bit. rewrite cc_set_nth by lia.
  destruct (c / 32 =? i); [|apply W]. apply wf_lor; [apply W|apply wf_mask; lia].
Qed.
Lemma wf_clear x c : c < 256 -> wf_map x -> wf_map (clear_bit x c).
Proof.
  intros C [L W]. split; [unfold clear_bit; rewrite cc_set_len; exact L|]. intros i. unfold clear_bit. rewrite cc_set_nth by lia.
  destruct (c / 32 =? i); [|apply W]. apply wf_ldiff; [apply W|apply wf_mask; lia].
Qed.
Lemma wf_clear_all : wf_map clear_all.
Proof. split; [reflexivity|]. intros i. unfold clear_all, ULONGS_PER_CC. do 8 (destruct i; [exact wf_0|]). destruct i; exact wf_0. Qed.
Lemma wf_set_all : wf_map set_all.
Proof. split; [reflexivity|]. intros i. unfold set_all, ULONGS_PER_CC. do 8 (destruct i; [exact wf_ones|]). destruct i; exact wf_0. Qed.
Lemma wf_invert x : wf_map x -> wf_map (invert_charclass x).
Proof.
  intros [L W]. split; [unfold invert_charclass; rewrite map_length; exact L|]. intros i. unfold invert_charclass.
  destruct (Nat.lt_ge_cases i (length x)) as [H|H].
  - rewrite nth_indep with (d' := N.lxor 0 (2 ^ 32 - 1)) by (rewrite map_length; exact H). rewrite map_nth with (f := fun w => N.lxor w (2 ^ 32 - 1)). apply wf_inv, W.
  - rewrite nth_overflow by (rewrite map_length; exact H). exact wf_0.
Qed.

Lemma low_set x c d : c < 256 -> length x = 8 -> low (set_bit x c) d = low x d || (d =? c).
Proof.
  intros C L. unfold low, set_bit, word_at. rewrite cc_set_nth by lia. destruct (c / 32 =? d / 32) eqn:E.
  - rewrite N.lor_spec, mask_bit by lia. apply Nat.eqb_eq in E. rewrite E. f_equal. destruct (c mod 32 =? 31) eqn:F; lia.
  - replace (d =? c) with false by lia. rewrite orb_false_r. reflexivity.
Qed.
Lemma high_set x c i : c < 256 -> length x = 8 -> high (set_bit x c) i = high x i || ((c mod 32 =? 31) && (c / 32 =? i)).
Proof.
  intros C L. unfold high, set_bit, word_at. rewrite cc_set_nth by lia. destruct (c / 32 =? i) eqn:E.
  - rewrite N.lor_spec, mask_bit by lia. apply Nat.eqb_eq in E. rewrite E. f_equal. destruct (c mod 32 =? 31) eqn:F; lia.
  - rewrite andb_false_r, orb_false_r. reflexivity.
Qed.
Lemma low_clear x c d : c < 256 -> length x = 8 -> low (clear_bit x c) d = low x d && negb (d =? c).
Proof.
  intros C L. unfold low, clear_bit, word_at. rewrite cc_set_nth by lia. destruct (c / 32 =? d / 32) eqn:E.
  - rewrite N.ldiff_spec, mask_bit by lia. apply Nat.eqb_eq in E. rewrite E. f_equal. f_equal. destruct (c mod 32 =? 31) eqn:F; lia.
  - replace (d =? c) with false by lia. rewrite andb_true_r. reflexivity.
Qed.
Lemma high_clear x c i : c < 256 -> length x = 8 -> high (clear_bit x c) i = high x i && negb ((c mod 32 =? 31) && (c / 32 =? i)).
Proof.
  intros C L. unfold high, clear_bit, word_at. rewrite cc_set_nth by lia. destruct (c / 32 =? i) eqn:E.
  - rewrite N.ldiff_spec, mask_bit by lia. apply Nat.eqb_eq in E. rewrite E. f_equal. f_equal. destruct (c mod 32 =? 31) eqn:F; lia.
  - rewrite andb_false_r, andb_true_r. reflexivity.
Qed.
Lemma low_words f g x y c : f 0%N 0%N = 0%N -> (forall a b k, N.testbit (f a b) k = g (N.testbit a k) (N.testbit b k)) -> length x = length y -> low (words f x y) c = g (low x c) (low y c).
Proof. intros Z H L. unfold low. rewrite nth_words by assumption. apply H. Qed.
Lemma high_words f g x y i : f 0%N 0%N = 0%N -> (forall a b k, N.testbit (f a b) k = g (N.testbit a k) (N.testbit b k)) -> length x = length y -> high (words f x y) i = g (high x i) (high y i).
Proof. intros Z H L. unfold high. rewrite nth_words by assumption. apply H. Qed.
Lemma low_invert x c : c < 256 -> length x = 8 -> low (invert_charclass x) c = negb (low x c).
Proof.
  intros C L. unfold low, invert_charclass. rewrite nth_indep with (d' := N.lxor 0 (2 ^ 32 - 1)) by (rewrite map_length; lia).
  rewrite map_nth with (f := fun w => N.lxor w (2 ^ 32 - 1)). rewrite N.lxor_spec, low32. replace (N.of_nat (c mod 32) <? 32)%N with true by lia. apply xorb_true_r.
Qed.
Lemma high_invert x i : high (invert_charclass x) i = high x i.
Proof.
  unfold high, invert_charclass. destruct (Nat.lt_ge_cases i (length x)) as [H|H].
  - rewrite nth_indep with (d' := N.lxor 0 (2 ^ 32 - 1)) by (rewrite map_length; lia).
    rewrite map_nth with (f := fun w => N.lxor w (2 ^ 32 - 1)). rewrite N.lxor_spec, low32. apply xorb_false_r.
  - rewrite !nth_overflow; rewrite ?map_length; auto.
Qed.
Lemma nth_zeros i : nth i clear_all 0%N = 0%N.
Proof. unfold clear_all, ULONGS_PER_CC. do 8 (destruct i; [reflexivity|]). destruct i; reflexivity. Qed.
Lemma low_clear_all c : low clear_all c = false.
Proof. unfold low. rewrite nth_zeros. apply N.bits_0. Qed.
Lemma high_clear_all i : high clear_all i = false.
Proof. unfold high. rewrite nth_zeros. apply N.bits_0. Qed.
Lemma low_set_all c : c < 256 -> low set_all c = true.
Proof. intros C. unfold low, set_all, ULONGS_PER_CC. rewrite nth_repeat_in by lia. rewrite low32. lia. Qed.
Lemma high_set_all i : high set_all i = false.
Proof. unfold high, set_all, ULONGS_PER_CC. do 8 (destruct i; [reflexivity|]). destruct i; reflexivity. Qed.

(* A class before the caret is applied: the characters listed, with bits in the upper half for those ending in 31. *)
Definition plain_map (x : bitmap) (P : nat -> bool) : Prop :=
  wf_map x /\ (forall c, c < 256 -> low x c = P c) /\ (forall i, i < 8 -> high x i = P (i * 32 + 31)).
Lemma plain_set x P c : c < 256 -> plain_map x P -> plain_map (set_bit x c) (fun d => P d || (d =? c)).
Proof.
  intros C (W & L & H). split; [apply wf_set; assumption|]. destruct W as [W _]. split.
  - intros d D. rewrite low_set by assumption. rewrite L by assumption. reflexivity.
  - intros i I. rewrite high_set by assumption. rewrite H by assumption. f_equal. lia.
Qed.
Lemma plain_ext x P Q : (forall c, c < 256 -> P c = Q c) -> plain_map x P -> plain_map x Q.
Proof. intros E (W & L & H). split; [exact W|]. split; intros; rewrite <- E by lia; auto. Qed.
Lemma plain_range n : forall a x P, a + n <= 256 -> plain_map x P -> plain_map (fold_left set_bit (seq a n) x) (fun d => P d || ((a <=? d) && (d <? a + n))).
Proof.
  induction n as [|n IH]; intros a x P L H; cbn [seq fold_left].
  - eapply plain_ext; [|exact H]. intros c C. cbv beta. destruct (P c); cbn [orb]; lia.
  - eapply plain_ext; [|apply IH; [|apply plain_set; [|exact H]]]; try lia. intros c C. cbv beta. destruct (P c); cbn [orb]; lia.
Qed.
Lemma plain_add_range x P a b : a < 256 -> b < 256 -> plain_map x P -> plain_map (add_range_to_charclass x a b) (fun d => P d || ((Nat.min a b <=? d) && (d <=? Nat.max a b))).
Proof.
  intros A B H. unfold add_range_to_charclass. destruct (b <? a) eqn:E.
  - eapply plain_ext; [|apply plain_range; [|exact H]; lia]. intros c C. cbv beta. f_equal. f_equal; lia.
  - eapply plain_ext; [|apply plain_range; [|exact H]; lia]. intros c C. cbv beta. f_equal. f_equal; lia.
Qed.
Lemma plain_body : forall l x P, Forall (fun i => match i with Cc_char d => d < 256 | Cc_range a b => a < 256 /\ b < 256 end) l -> plain_map x P ->
  plain_map (fold_left (fun x i => match i with Cc_char c => add_singleton_to_charclass x c | Cc_range c d => add_range_to_charclass x c d end) l x)
    (fun c => P c || existsb (fun i => match i with Cc_char d => c =? d | Cc_range a b => (Nat.min a b <=? c) && (c <=? Nat.max a b) end) l).
Proof.
  induction l as [|i l IH]; intros x P F H; cbn [fold_left existsb].
  - eapply plain_ext; [|exact H]. intros. rewrite orb_false_r. reflexivity.
  - inversion F as [|? ? Fi Fl]; subst. destruct i as [d|a b].
    + eapply plain_ext; [|apply IH; [exact Fl|apply plain_set; [exact Fi|exact H]]]. intros c C. cbv beta. rewrite orb_assoc. reflexivity.
    + destruct Fi as [A B]. eapply plain_ext; [|apply IH; [exact Fl|apply plain_add_range; [exact A|exact B|exact H]]].
      intros c C. cbv beta. rewrite orb_assoc. reflexivity.
Qed.
Lemma make_simple_bits s : of_chars s -> wf_map (make_simple s) /\ (forall c, c < 256 -> low (make_simple s) c = in_simple c s) /\ (forall i, i < 8 -> high (make_simple s) i = listed (i * 32 + 31) s).
Proof.
  intros F. unfold make_simple.
  assert (P : plain_map clear_all (fun _ => false)) by (split; [exact wf_clear_all|split; intros; [apply low_clear_all|apply high_clear_all]]).
  apply (plain_body (body s)) in P; [|exact F]. cbn [orb] in P. destruct P as (W & L & H). unfold in_simple. destruct (caret s).
  - split; [apply wf_invert; exact W|]. split.
    + intros c C. rewrite low_invert by (assumption || apply W). rewrite L by exact C. reflexivity.
    + intros i I. rewrite high_invert. apply H. exact I.
  - split; [exact W|]. split; [|exact H]. intros c C. rewrite L by exact C. unfold listed. destruct (existsb _ _); reflexivity.
Qed.
Definition upper (k : char_class) (c : nat) : bool := match k with Cc_simple s => listed c s | Cc_negated s => listed c s | Cc_diff s t => listed c s && negb (listed c t) end.
Lemma make_class_bits k : class_chars k -> wf_map (make_class k) /\ (forall c, c < 256 -> low (make_class k) c = in_class c k) /\ (forall i, i < 8 -> high (make_class k) i = upper k (i * 32 + 31)).
Proof.
  destruct k as [s|s|s t]; intros F; cbn [make_class in_class upper].
  - apply make_simple_bits, F.
  - destruct (make_simple_bits s F) as (W & L & H). split; [apply wf_invert, W|]. split.
    + intros c C. rewrite low_invert by (assumption || apply W). rewrite L by exact C. reflexivity.
    + intros i I. rewrite high_invert. apply H, I.
  - destruct F as [F G]. destruct (make_simple_bits s F) as (W & L & H). destruct (make_simple_bits t G) as (W' & L' & H').
    unfold diff_charclasses. split; [apply wf_words; auto using wf_ldiff|].
    assert (Le : length (make_simple s) = length (make_simple t)) by (destruct W, W'; lia). split.
    + intros c C. rewrite (low_words N.ldiff (fun a b => a && negb b)) by (reflexivity || exact Le || apply N.ldiff_spec). rewrite L, L' by exact C. reflexivity.
    + intros i I. rewrite (high_words N.ldiff (fun a b => a && negb b)) by (reflexivity || exact Le || apply N.ldiff_spec). rewrite H, H' by exact I. reflexivity.
Qed.
Lemma class_test k c : class_chars k -> c < 256 -> cc_test_bit (make_class k) c = in_class c k || misread c k.
Proof.
  intros F C. destruct (make_class_bits k F) as (W & L & H). rewrite test_low by exact W. rewrite L by exact C. unfold misread.
  destruct (c mod 32 =? 31) eqn:E; cbn [andb]; [|reflexivity]. rewrite H by lia. replace (c / 32 * 32 + 31) with c by lia.
  destruct k as [s|s|s t]; cbn [in_class upper]; unfold in_simple; destruct (caret s), (listed c s); cbn; try reflexivity; destruct (caret t), (listed c t); reflexivity.
Qed.
