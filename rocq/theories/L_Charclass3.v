(* Transitions by classes become transitions by groups of characters. *)
From Coq Require Import Permutation Sorted.
From Verif Require Import Base M_Charclass M_Dfasyn M_Compdfa S_Dfasyn L_Charclass L_Charclass2.
Local Open Scope nat_scope.

Lemma sound_set x c : c < 256 -> sound_map x -> sound_map (set_bit x c).
Proof.
  intros C [W S]. split; [apply wf_set; assumption|]. intros i I. destruct W as [L W]. rewrite high_set, low_set by assumption. rewrite !orb_true_iff.
  intros [H|H]; [left; auto|right]. lia.
Qed.
Lemma group_bits m n x : groups [x] m n \/ (forall c, c < 256 -> low x c = true -> (0 <= nth c m (-1) < 256)%Z) -> sound_map x ->
  forall k a g, a + k <= 256 -> sound_map g -> 
  let g' := fold_left (fun g i => if cc_test_bit x i then set_bit g (Z.to_nat (nth i m (-1)%Z)) else g) (seq a k) g in
  sound_map g' /\ forall i, i < 256 -> low g' i = true <-> low g i = true \/ exists c, a <= c < a + k /\ low x c = true /\ nth c m (-1)%Z = Z.of_nat i.
Proof.
  intros G Sx.
  assert (R : forall c, c < 256 -> low x c = true -> (0 <= nth c m (-1) < 256)%Z).
  { destruct G as [G|G]; [|exact G]. intros c C T. pose proof (gr_range _ _ _ G c C). pose proof (gr_count _ _ _ G). assert (nth c m (-1)%Z <> (-1)%Z); [|lia].
    intros E. rewrite (proj1 (gr_none _ _ _ G c C) E x (or_introl eq_refl)) in T. discriminate. }
  clear G n. induction k as [|k IH]; intros a g L Sg; cbn [seq fold_left].
  - split; [exact Sg|]. intros i I. split; [auto|]. intros [H|(c & C & _)]; [exact H|lia].
  - rewrite sound_test by (assumption || lia). destruct (low x a) eqn:E.
    + pose proof (R a ltac:(lia) E) as Ra. destruct (IH (S a) (set_bit g (Z.to_nat (nth a m (-1)%Z)))) as [A B]; [lia|apply sound_set; [lia|exact Sg]|].
      split; [exact A|]. intros i I. rewrite B by exact I. rewrite low_set by (lia || apply Sg). rewrite orb_true_iff. split.
      * intros [[H|H]|(c & C & T)]; [left; exact H|right; exists a; repeat split; try lia; assumption|right; exists c; split; [lia|exact T]].
      * intros [H|(c & C & T & Q)]; [tauto|]. destruct (Nat.eq_dec c a) as [->|N]; [left; right; lia|right; exists c; repeat split; try assumption; lia].
    + destruct (IH (S a) g) as [A B]; [lia|exact Sg|]. split; [exact A|]. intros i I. rewrite B by exact I. split.
      * intros [H|(c & C & T)]; [left; exact H|right; exists c; split; [lia|exact T]].
      * intros [H|(c & C & T & Q)]; [tauto|]. destruct (Nat.eq_dec c a) as [->|N]; [congruence|right; exists c; repeat split; try assumption; lia].
Qed.
Lemma group_bitmap_ok m x : (forall c, c < 256 -> low x c = true -> (0 <= nth c m (-1) < 256)%Z) -> sound_map x ->
  sound_map (group_bitmap m x) /\ forall i, i < 256 -> low (group_bitmap m x) i = true <-> exists c, c < 256 /\ low x c = true /\ nth c m (-1)%Z = Z.of_nat i.
Proof.
  intros R Sx. unfold group_bitmap. destruct (group_bits m 0 x (or_intror R) Sx 256 0 clear_all (le_n 256) sound_zero) as [A B]. split; [exact A|].
  intros i I. rewrite (B i I). rewrite low_clear_all. split.
  - intros [H|(c & C & T)]; [discriminate|]. exists c. split; [apply C|exact T].
  - intros (c & C & T). right. exists c. split; [split; [apply Nat.le_0_l|exact C]|exact T].
Qed.
Lemma reduce_in b cs k x : nth_error cs k = Some x -> mark_used b k = true -> In x (reduce_list b cs).
Proof.
  intros E U. unfold reduce_list. apply in_map_iff. exists (k, x). split; [reflexivity|]. apply filter_In. split; [|exact U].
  assert (L : k < length cs) by (apply nth_error_Some; congruence).
  replace (k, x) with (nth k (List.combine (seq 0 (length cs)) cs) (0, x)).
  - apply nth_In. rewrite combine_length, seq_length. lia.
  - rewrite combine_nth by apply seq_length. rewrite seq_nth by exact L. f_equal. apply nth_error_nth. exact E.
Qed.
Lemma used_edge b p k q : edge b p (TT_CHARCLASS k) q -> mark_used b k = true.
Proof.
  intros (st & E & I). unfold mark_used. apply existsb_exists. exists st. split; [eapply nth_error_In; exact E|]. apply existsb_exists. exists (TT_CHARCLASS k, q). split; [exact I|]. cbn. apply Nat.eqb_refl.
Qed.

Section Expand.
Variables (nt : nat) (cs : list bitmap) (b : block) (m : list Z) (n : nat).
Hypothesis So : Forall sound_map cs.
Hypothesis G : groups (reduce_list b cs) m n.
Lemma class_group k x : nth_error cs k = Some x -> mark_used b k = true -> forall i, i < 256 ->
  (cc_test_bit (group_bitmap m (nth k cs clear_all)) i = true <-> exists c, c < 256 /\ low x c = true /\ nth c m (-1)%Z = Z.of_nat i).
Proof.
  intros E U i I. pose proof (reduce_in _ _ _ _ E U) as Ix. rewrite (nth_error_nth _ _ _ E).
  assert (Sx : sound_map x) by (rewrite Forall_forall in So; apply So; eapply nth_error_In; exact E).
  destruct (group_bitmap_ok m x) as [A B]; [|exact Sx|].
  - intros c C T. pose proof (gr_range _ _ _ G c C). pose proof (gr_count _ _ _ G). assert (nth c m (-1)%Z <> (-1)%Z); [|lia].
    intros Q. rewrite (proj1 (gr_none _ _ _ G c C) Q x Ix) in T. discriminate.
  - rewrite (sound_test _ i A I). exact (B i I).
Qed.
Lemma in_group k c : c < 256 -> mark_used b k = true -> forall x, nth_error cs k = Some x ->
  (low x c = true <-> (0 <= nth c m (-1))%Z /\ cc_test_bit (group_bitmap m (nth k cs clear_all)) (Z.to_nat (nth c m (-1)%Z)) = true).
Proof.
  intros C U x E. pose proof (reduce_in _ _ _ _ E U) as Ix. pose proof (gr_range _ _ _ G c C) as R. pose proof (gr_count _ _ _ G) as K. split.
  - intros T. assert (nth c m (-1)%Z <> (-1)%Z).
    { intros Q. rewrite (proj1 (gr_none _ _ _ G c C) Q x Ix) in T. discriminate. }
    split; [lia|]. rewrite (class_group k x E U) by lia. exists c. repeat split; try assumption. lia.
  - intros [P T]. rewrite (class_group k x E U) in T by lia. destruct T as (d & D & T & Q).
    rewrite (proj1 (gr_alike _ _ _ G c d C D ltac:(lia)) ltac:(lia) x Ix). exact T.
Qed.
(* the transitions after expansion *)
Lemma expanded_edge p y q : edge (expand_charclass_transitions nt cs m b) p y q <->
  match y with
  | TT_EPSILON => edge b p TT_EPSILON q
  | TT_TOKEN t => edge b p (TT_TOKEN t) q \/ exists k i, edge b p (TT_CHARCLASS k) q /\ i < 256 /\ cc_test_bit (group_bitmap m (nth k cs clear_all)) i = true /\ t = nt + i
  | TT_CHARCLASS k => edge b p (TT_CHARCLASS k) q /\ forall i, i < 256 -> cc_test_bit (group_bitmap m (nth k cs clear_all)) i = false
  end.
Proof.
  unfold edge, expand_charclass_transitions.
  assert (H : (exists st, nth_error (map (fun s => State (flat_map (expand_transition nt cs m) (transitions s)) (tags s)) b) p = Some st /\ In (y, q) (transitions st)) <->
    exists st, nth_error b p = Some st /\ exists t, In t (transitions st) /\ In (y, q) (expand_transition nt cs m t)).
  { rewrite nth_error_map. destruct (nth_error b p) as [st|]; cbn [option_map].
    - split.
      + intros (st' & E & I). injection E as <-. cbn in I. apply in_flat_map in I. exists st. auto.
      + intros (st' & E & I). injection E as <-. eexists. split; [reflexivity|]. cbn. apply in_flat_map. exact I.
    - split; intros (st' & E & _); discriminate. }
  rewrite H. clear H.
  assert (X : forall k d, In (y, q) (expand_transition nt cs m (TT_CHARCLASS k, d)) <-> q = d /\ match y with TT_TOKEN t => exists i, i < 256 /\ cc_test_bit (group_bitmap m (nth k cs clear_all)) i = true /\ t = nt + i
     | TT_CHARCLASS k' => k' = k /\ forall i, i < 256 -> cc_test_bit (group_bitmap m (nth k cs clear_all)) i = false | TT_EPSILON => False end).
  { intros k d. unfold expand_transition. cbn [fst snd]. set (f := cc_test_bit (group_bitmap m (nth k cs clear_all))).
    pose proof (filter_In f) as FI. specialize (fun x => FI x (seq 0 256)). destruct (filter f (seq 0 256)) as [|i0 is_].
    - assert (Z : forall i, i < 256 -> f i = false).
      { intros i I. destruct (f i) eqn:Q; [|reflexivity]. exfalso. apply (proj2 (FI i)). split; [apply in_seq; lia|exact Q]. }
      cbn. split.
      + intros [E|[]]. injection E as <- <-. auto.
      + intros [-> Y]. left. destruct y as [|t|k']; [destruct Y| |destruct Y as [-> _]; reflexivity]. destruct Y as (i & I & T & _). rewrite Z in T by exact I. discriminate.
    - assert (M : In (y, q) ((TT_TOKEN (nt + i0), d) :: rev (map (fun i => (TT_TOKEN (nt + i), d)) is_)) <-> exists i, In i (i0 :: is_) /\ (y, q) = (TT_TOKEN (nt + i), d)).
      { cbn. rewrite <- in_rev, in_map_iff. split.
        - intros [E|(i & E & I)]; [exists i0; auto|exists i; auto].
        - intros (i & [->|I] & E); [left; auto|right; eauto]. }
      rewrite M. split.
      + intros (i & I & E). injection E as -> ->. split; [reflexivity|]. apply FI in I. destruct I as [I T]. apply in_seq in I. exists i. split; [lia|]. auto.
      + intros [-> Y]. destruct y as [|t|k']; [destruct Y| |].
        * destruct Y as (i & I & T & ->). exists i. split; [|reflexivity]. apply FI. split; [apply in_seq; lia|exact T].
        * exfalso. destruct Y as [_ Y]. pose proof (proj1 (FI i0) (or_introl eq_refl)) as [I T]. apply in_seq in I. rewrite Y in T by lia. discriminate. }
  split.
  - intros (st & E & (t & d) & I & J). destruct t as [|t|k].
    + cbn in J. destruct J as [J|[]]. injection J as <- <-. eauto.
    + cbn in J. destruct J as [J|[]]. injection J as <- <-. eauto.
    + apply (proj1 (X _ _)) in J. destruct J as [-> J]. destruct y as [|t|k']; [destruct J| |].
      * destruct J as (i & Hi & T & ->). right. exists k, i. repeat split; eauto.
      * destruct J as [-> J]. split; eauto.
  - destruct y as [|t|k].
    + intros (st & E & I). exists st. split; [exact E|]. eexists. split; [exact I|]. cbn. auto.
    + intros [(st & E & I)|(k & i & (st & E & I) & J)]; exists st; (split; [exact E|]); eexists; (split; [exact I|]); [cbn; auto|]. apply (proj2 (X _ _)). split; [reflexivity|]. exists i. exact J.
    + intros [(st & E & I) J]. exists st. split; [exact E|]. eexists. split; [exact I|]. apply (proj2 (X _ _)). auto.
Qed.
Lemma expanded_tags q : option_map tags (nth_error (expand_charclass_transitions nt cs m b) q) = option_map tags (nth_error b q).
Proof. unfold expand_charclass_transitions. rewrite nth_error_map. destruct (nth_error b q); reflexivity. Qed.
End Expand.

(* reading a symbol *)
Lemma symbol_edge classes b nt m n : Forall class_ok classes -> groups (reduce_list b (map make_class classes)) m n ->
  (forall p q y, edge b p y q -> match y with TT_EPSILON => True | TT_TOKEN t => t < nt | TT_CHARCLASS k => k < length classes end) ->
  forall p q s, match s with Tok t => t < nt | Chr c => c < 256 end ->
  let z := match s with Tok t => Z.of_nat t | Chr c => nth c (char2tok nt m) (-1)%Z end in
  (exists y, edge b p y q /\ fits classes y s) <-> (0 <= z)%Z /\ edge (expand_charclass_transitions nt (map make_class classes) m b) p (TT_TOKEN (Z.to_nat z)) q.
Proof.
  intros F G R p q s K z.
  assert (Sm : Forall sound_map (map make_class classes)) by (apply Forall_forall; intros x I; apply in_map_iff in I; destruct I as (k & <- & I); rewrite Forall_forall in F; destruct (F k I); apply sound_class; assumption).
  rewrite expanded_edge. destruct s as [t|c].
  - subst z. cbv iota. rewrite Nat2Z.id. split.
    + intros (y & E & Q). destruct y as [|t'|k]; cbn in Q; try contradiction. subst t'. split; [lia|]. left. exact E.
    + intros [_ [E|(k & i & E & I & T & Q)]]; [|lia]. exists (TT_TOKEN t). split; [exact E|reflexivity].
  - assert (Ez : z = if (0 <=? nth c m (-1))%Z then (nth c m (-1) + Z.of_nat nt)%Z else nth c m (-1)%Z).
    { subst z. unfold char2tok. pose proof (gr_len _ _ _ G) as L. rewrite nth_indep with (d' := (fun m => if (0 <=? m)%Z then (m + Z.of_nat nt)%Z else m) (-1)%Z) by (rewrite map_length; lia).
      rewrite (map_nth (fun m => if (0 <=? m)%Z then (m + Z.of_nat nt)%Z else m)). reflexivity. }
    split.
    + intros (y & E & Q). destruct y as [|t'|k]; cbn in Q; try contradiction. destruct Q as (cc & Ek & T). pose proof (used_edge _ _ _ _ E) as U.
      assert (Ex : nth_error (map make_class classes) k = Some (make_class cc)) by (rewrite nth_error_map, Ek; reflexivity).
      assert (Ok_ : class_ok cc) by (rewrite Forall_forall in F; apply F; eapply nth_error_In; exact Ek). destruct Ok_ as [Cc _].
      rewrite <- (proj1 (proj2 (make_class_bits cc Cc)) c K) in T. apply (in_group _ _ _ _ Sm G k c K U _ Ex) in T. destruct T as [P T].
      replace (0 <=? nth c m (-1))%Z with true in Ez by lia. split; [lia|]. right. pose proof (gr_range _ _ _ G c K). pose proof (gr_count _ _ _ G).
      exists k, (Z.to_nat (nth c m (-1)%Z)). repeat split; try assumption; lia.
    + intros [P [E|(k & i & E & I & T & Q)]].
      * exfalso. pose proof (R _ _ _ E). cbn in H. destruct (0 <=? nth c m (-1))%Z eqn:Y; lia.
      * destruct (0 <=? nth c m (-1))%Z eqn:Y; [|lia]. assert (i = Z.to_nat (nth c m (-1)%Z)) by lia. subst i.
        pose proof (R _ _ _ E) as Lk. cbn in Lk. destruct (nth_error classes k) as [cc|] eqn:Ek; [|apply nth_error_None in Ek; lia].
        assert (Ex : nth_error (map make_class classes) k = Some (make_class cc)) by (rewrite nth_error_map, Ek; reflexivity).
        assert (Ok_ : class_ok cc) by (rewrite Forall_forall in F; apply F; eapply nth_error_In; exact Ek). destruct Ok_ as [Cc _].
        exists (TT_CHARCLASS k). split; [exact E|]. exists cc. split; [exact Ek|]. rewrite <- (proj1 (proj2 (make_class_bits cc Cc)) c K).
        apply (in_group _ _ _ _ Sm G k c K (used_edge _ _ _ _ E) _ Ex). split; [lia|exact T].
Qed.
