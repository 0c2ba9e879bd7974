From Verif Require Import Base L_Bits M_WuManber S_Match.

(* ---- edit relation ---- *)
Lemma within_S n s t : within n s t -> within (S n) s t.
Proof. induction 1; constructor; assumption. Qed.
Lemma within_app n s t m s' t' : within n s t -> within m s' t' -> within (n + m) (s ++ s') (t ++ t').
Proof.
  intros H H'. induction H; cbn [app Nat.add]; try (constructor; assumption).
  induction n; [assumption|]. cbn. now apply within_S.
Qed.
Lemma within_snoc n s t m s' t' k : within n s t -> within m s' t' -> k = (n + m)%nat -> within k (s ++ s') (t ++ t').
Proof. intros. subst. now apply within_app. Qed.
Lemma within_rev n s t : within n s t -> within n (rev s) (rev t).
Proof.
  induction 1; cbn [rev]; [constructor| | | |].
  - eapply within_snoc; [eassumption|apply (W_same 0); constructor|lia].
  - eapply within_snoc; [eassumption|apply (W_subst 0); constructor|lia].
  - rewrite <- (app_nil_r (rev s)). eapply within_snoc; [eassumption|apply (W_insert 0); constructor|lia].
  - rewrite <- (app_nil_r (rev t)). eapply within_snoc; [eassumption|apply (W_delete 0); constructor|lia].
Qed.
Lemma within_0 s t : within 0 s t <-> s = t.
Proof.
  split.
  - intros H. remember 0%nat as n. induction H; try discriminate; [reflexivity|]. now rewrite IHwithin.
  - intros <-. induction s; constructor; assumption.
Qed.
Lemma within_nil n s : within n s [] <-> (length s <= n)%nat.
Proof.
  revert n. induction s as [|a s IH]; intros n; split.
  - intros _. cbn. lia.
  - constructor.
  - intros H. inversion H; subst. cbn [length]. assert (length s <= n0)%nat by now apply IH. lia.
  - cbn [length]. intros H. destruct n; [lia|]. apply W_delete. apply IH. lia.
Qed.
(* The last step of an edit. *)
Lemma within_first n p a t : within n (a :: p) t ->
  (exists t', t = a :: t' /\ within n p t') \/
  (exists m t' c, n = S m /\ t = c :: t' /\ (within m p t' \/ within m (a :: p) t')) \/
  (exists m, n = S m /\ within m p t).
Proof.
  inversion 1; subst; [left; eauto|right; left|right; left|right; right; eauto].
  - eexists _, _, _. split; [reflexivity|]. split; [reflexivity|]. now left.
  - eexists _, _, _. split; [reflexivity|]. split; [reflexivity|]. now right.
Qed.
Lemma within_last n p a t : within n (p ++ [a]) t ->
  (exists t', t = t' ++ [a] /\ within n p t') \/
  (exists m t' c, n = S m /\ t = t' ++ [c] /\ (within m p t' \/ within m (p ++ [a]) t')) \/
  (exists m, n = S m /\ within m p t).
Proof.
  intros H. apply within_rev in H. rewrite rev_app_distr in H. cbn [rev app] in H.
  assert (TT : forall c x, rev t = c :: x -> t = rev x ++ [c]) by (intros c x E; rewrite <- (rev_involutive t), E; reflexivity).
  assert (RR : forall k x y, within k (rev x) y -> within k x (rev y)) by (intros k x y W; apply within_rev in W; now rewrite rev_involutive in W).
  apply within_first in H as [(t' & E & H)|[(m & t' & c & E1 & E & H)|(m & E1 & H)]].
  - left. exists (rev t'). auto.
  - right; left. exists m, (rev t'), c. split; [assumption|]. split; [auto|]. destruct H as [H|H]; [left; auto|right].
    apply RR. now rewrite rev_app_distr.
  - right; right. exists m. split; [assumption|]. apply RR in H. now rewrite rev_involutive in H.
Qed.

(* ---- bits ---- *)
Local Open Scope N_scope.
Lemma tb_ones i : i < 64 -> N.testbit ones64 i = true.
Proof. intros H. unfold ones64. rewrite <- N.pred_sub, <- N.ones_equiv. now apply N.ones_spec_low. Qed.
Lemma tb_not64 x i : i < 64 -> N.testbit (not64 x) i = negb (N.testbit x i).
Proof. intros H. unfold not64. rewrite N.lxor_spec, tb_ones by assumption. now destruct (N.testbit x i). Qed.
Lemma tb_u64 x i : i < 64 -> N.testbit (u64 x) i = N.testbit x i.
Proof. intros H. unfold u64. now apply N.mod_pow2_bits_low. Qed.
Lemma tb_u32 x i : i < 32 -> N.testbit (u32 x) i = N.testbit x i.
Proof. intros H. unfold u32. now apply N.mod_pow2_bits_low. Qed.
Lemma tb_shl0 x : N.testbit (shl x) 0 = false.
Proof. unfold shl. rewrite tb_u64 by lia. now rewrite N.shiftl_spec_low by lia. Qed.
Lemma tb_shlS x i : i + 1 < 64 -> N.testbit (shl x) (i + 1) = N.testbit x i.
Proof. intros H. unfold shl. rewrite tb_u64 by lia. rewrite N.shiftl_spec_high' by lia. f_equal. lia. Qed.
Lemma tb_one i j : N.testbit (N.shiftl 1 i) j = (i =? j).
Proof. rewrite N.shiftl_1_l, N.pow2_bits_eqb. reflexivity. Qed.
Lemma u64_high x i : x < 2 ^ 64 -> 64 <= i -> N.testbit x i = false.
Proof. intros H Hi. destruct (N.eq_dec x 0) as [->|Hx]; [apply N.bits_0|]. apply N.bits_above_log2. apply N.log2_lt_pow2; [lia|].
  eapply N.lt_le_trans; [exact H|]. now apply N.pow_le_mono_r. Qed.

(* The hit test looks at one bit. *)
Lemma bits_small x : (forall i, 64 <= i -> N.testbit x i = false) -> (forall i, i < 64 -> N.testbit x i = false) -> x = 0.
Proof. intros H1 H2. apply N.bits_inj_0. intros i. destruct (N.lt_ge_cases i 64); auto. Qed.
Lemma not64_high x i : 64 <= i -> N.testbit (not64 x) i = N.testbit x i.
Proof.
  intros H. unfold not64. rewrite N.lxor_spec. unfold ones64. rewrite <- N.pred_sub, <- N.ones_equiv, N.ones_spec_high by assumption.
  apply xorb_false_r.
Qed.
Definition is64 (x : N) : Prop := forall i, 64 <= i -> N.testbit x i = false.
Lemma hit_test k x : k < 64 -> is64 x ->
  negb (not64 (N.lor x (not64 (N.shiftl 1 k))) =? 0) = negb (N.testbit x k).
Proof.
  intros Hk Hx. f_equal. destruct (N.testbit x k) eqn:E.
  - apply N.eqb_eq. apply bits_small; intros i Hi.
    + rewrite not64_high, N.lor_spec, Hx, not64_high, tb_one by assumption. cbn. apply N.eqb_neq. lia.
    + rewrite tb_not64, N.lor_spec, tb_not64, tb_one by assumption.
      destruct (N.eqb_spec k i) as [->|]; [now rewrite E|]. now rewrite orb_true_r.
  - apply N.eqb_neq. intros H. assert (N.testbit (not64 (N.lor x (not64 (N.shiftl 1 k)))) k = false) as HT by (rewrite H; apply N.bits_0).
    rewrite tb_not64, N.lor_spec, tb_not64, tb_one, E, N.eqb_refl in HT by assumption. discriminate.
Qed.
Lemma is64_u64 x : is64 (u64 x).
Proof. intros i Hi. unfold u64. now apply N.mod_pow2_bits_high. Qed.
Lemma is64_u32 x : is64 (u32 x).
Proof. intros i Hi. unfold u32. apply N.mod_pow2_bits_high. lia. Qed.
Lemma is64_lor x y : is64 x -> is64 y -> is64 (N.lor x y).
Proof. intros H1 H2 i Hi. now rewrite N.lor_spec, H1, H2. Qed.
Lemma is64_land x y : is64 x -> is64 (N.land x y).
Proof. intros H1 i Hi. now rewrite N.land_spec, H1. Qed.
Lemma is64_land_r x y : is64 y -> is64 (N.land x y).
Proof. intros H1 i Hi. rewrite N.land_spec, H1 by assumption. apply andb_false_r. Qed.
Lemma is64_ones : is64 ones64.
Proof. intros i Hi. unfold ones64. rewrite <- N.pred_sub, <- N.ones_equiv. now apply N.ones_spec_high. Qed.
Lemma is64_anchor b : is64 (anchor_bit b).
Proof. intros i Hi. destruct b; cbn; [|apply N.bits_0]. change 1 with (2 ^ 0). rewrite N.pow2_bits_eqb. apply N.eqb_neq. lia. Qed.
Lemma tb_anchor b i : N.testbit (anchor_bit b) i = b && (i =? 0).
Proof.
  destruct b; cbn [anchor_bit andb]; [|apply N.bits_0]. change 1 with (2 ^ 0). rewrite N.pow2_bits_eqb. apply N.eqb_sym.
Qed.

(* ---- the match vector ---- *)
Lemma set_nth_nth {A} (l : list A) n k x d : (n < length l)%nat -> nth k (set_nth l n x) d = if (k =? n)%nat then x else nth k l d.
Proof.
  revert n k. induction l as [|y l IH]; intros n k H; [cbn in H; lia|]. destruct n as [|n], k as [|k]; cbn; try reflexivity.
  apply IH. cbn in H. lia.
Qed.
Lemma set_nth_len {A} (l : list A) n x : length (set_nth l n x) = length l.
Proof. revert n. induction l as [|y l IH]; intros [|n]; cbn; auto. Qed.

Definition vec_ok (s : bytes) (a : list N) (k : nat) : Prop :=
  length a = 256%nat /\ forall c i, c < 256 -> (i < 64)%nat ->
    N.testbit (ai a c) (N.of_nat i) = negb ((i <? k)%nat && (nth i s 256 =? c)).
Lemma clear_bits_ok s2 : forall s1 a, all_bytes (s1 ++ s2) -> (length (s1 ++ s2) < 64)%nat -> vec_ok (s1 ++ s2) a (length s1) ->
  vec_ok (s1 ++ s2) (clear_bits s2 (N.of_nat (length s1)) a) (length (s1 ++ s2)).
Proof.
  induction s2 as [|c s2 IH]; intros s1 a HB HL HV; cbn [clear_bits].
  - now rewrite app_nil_r in *.
  - assert (Hc : c < 256).
    { unfold all_bytes in HB. rewrite Forall_forall in HB. apply HB. apply in_or_app. right. now left. }
    specialize (IH (s1 ++ [c])). rewrite <- app_assoc in IH. cbn [app] in IH.
    replace (N.of_nat (length s1) + 1) with (N.of_nat (length (s1 ++ [c]))) by (rewrite app_length; cbn; lia).
    apply IH; [assumption|assumption|]. destruct HV as [V1 V2]. split; [now rewrite set_nth_len|].
    intros c' i Hc' Hi. unfold ai. rewrite set_nth_nth by (rewrite V1; lia).
    rewrite app_length in *. cbn [length] in *.
    destruct (Nat.eqb_spec (N.to_nat c') (N.to_nat c)) as [E|E].
    + assert (c' = c) by lia. subst c'. rewrite N.land_spec, tb_not64, tb_one by lia. fold (ai a c). rewrite V2 by assumption.
      destruct (N.eqb_spec (N.of_nat (length s1)) (N.of_nat i)) as [E2|E2].
      * assert (i = length s1) by lia. subst i. rewrite nth_middle, N.eqb_refl.
        destruct (Nat.ltb_spec (length s1) (length s1 + 1)); [|lia]. cbn. now rewrite andb_false_r.
      * rewrite andb_true_r. f_equal. f_equal. destruct (Nat.ltb_spec i (length s1)), (Nat.ltb_spec i (length s1 + 1)); lia || reflexivity.
    + fold (ai a c'). rewrite V2 by assumption. f_equal.
      destruct (Nat.ltb_spec i (length s1)), (Nat.ltb_spec i (length s1 + 1)); try lia; try reflexivity.
      assert (i = length s1) by lia. subst i. rewrite nth_middle. cbn. symmetry. apply N.eqb_neq. lia.
Qed.
Lemma nth_repeat_d {A} (x d : A) n k : (k < n)%nat -> nth k (repeat x n) d = x.
Proof. revert k. induction n; intros [|k] H; cbn; try lia; auto. apply IHn. lia. Qed.
Lemma clear_bits_64 s : forall i a, Forall is64 a -> (forall c, In c s -> (N.to_nat c < length a)%nat) -> Forall is64 (clear_bits s i a).
Proof.
  induction s as [|c s IH]; intros i a H HC; cbn [clear_bits]; [assumption|]. apply IH.
  - apply Forall_forall. intros x Hx. apply In_nth with (d := 0) in Hx as (k & K1 & K2). rewrite set_nth_len in K1.
    rewrite set_nth_nth in K2 by (apply HC; now left). rewrite Forall_forall in H.
    destruct (k =? N.to_nat c)%nat; subst x; [apply is64_land|]; apply H; apply nth_In; [apply HC; now left|assumption].
  - intros c' Hc'. rewrite set_nth_len. apply HC. now right.
Qed.
Definition vector (s : bytes) : list N := clear_bits s 0 (repeat ones64 256).
Lemma vector_ok s c i : all_bytes s -> (length s <= 31)%nat -> c < 256 -> (i < length s)%nat ->
  N.testbit (ai (vector s) c) (N.of_nat i) = negb (nth i s 256 =? c).
Proof.
  intros HB HL Hc Hi. destruct (clear_bits_ok s [] (repeat ones64 256) HB ltac:(cbn; lia)) as [_ V].
  - split; [now rewrite repeat_length|]. intros c' j Hc' Hj. cbn [length]. unfold ai. rewrite nth_repeat_d by lia. rewrite tb_ones by lia. reflexivity.
  - cbn [app length N.of_nat] in V. unfold vector. rewrite V by lia. destruct (Nat.ltb_spec i (length s)); [reflexivity|lia].
Qed.
Lemma vector_64 s c : all_bytes s -> is64 (ai (vector s) c).
Proof.
  intros HB. assert (HF : Forall is64 (vector s)).
  { apply clear_bits_64.
    - apply Forall_forall. intros x Hx. apply repeat_spec in Hx. subst. apply is64_ones.
    - intros c' Hc'. unfold all_bytes in HB. rewrite Forall_forall in HB. apply HB in Hc'. unfold is_byte in Hc'. rewrite repeat_length. lia. }
  unfold ai. destruct (Nat.lt_ge_cases (N.to_nat c) (length (vector s))).
  - rewrite Forall_forall in HF. apply HF. now apply nth_In.
  - rewrite nth_overflow by assumption. intros i _. apply N.bits_0.
Qed.

(* ---- the specialised matchers agree with the general one ---- *)
Lemma compo_bit nrs : forall x i, i < 32 -> N.testbit (fold_left (fun c x => u32 (N.land c x)) nrs (u32 x)) i = fold_left (fun b y => b && N.testbit y i) nrs (N.testbit x i).
Proof.
  induction nrs as [|y nrs IH]; intros x i Hi; cbn [fold_left]; [now apply tb_u32|].
  rewrite IH by assumption. now rewrite N.land_spec, tb_u32 by assumption.
Qed.
Lemma compo_64 nrs : forall x, is64 (fold_left (fun c x => u32 (N.land c x)) nrs (u32 x)).
Proof. induction nrs as [|y nrs IH]; intros x; cbn [fold_left]; [apply is64_u32|apply IH]. Qed.

Lemma hit_g k nr0 nrs : k < 31 ->
  negb (not64 (N.lor (compo nr0 nrs) (not64 (N.shiftl 1 k))) =? 0) = negb (fold_left (fun b y => b && N.testbit y k) nrs (N.testbit nr0 k)).
Proof. intros Hk. unfold compo. rewrite hit_test by (lia || apply compo_64). now rewrite compo_bit by lia. Qed.
Section Agree.
Variables (a : list N) (k : N) (anchor1 : N).
Hypothesis Hk : k < 31.
Hypothesis Ha : forall c, is64 (ai a c).
Hypothesis H1 : is64 anchor1.
Let hit := not64 (N.shiftl 1 k).
Lemma nr0_64 r0 anchor c : is64 anchor -> is64 (N.lor (N.lor (shl r0) anchor) (ai a c)).
Proof. intros H. apply is64_lor; [apply is64_lor; [apply is64_u64|assumption]|apply Ha]. Qed.
Lemma agree_0 token : forall anchor r0, is64 anchor -> loop_0 a hit anchor1 anchor r0 token = loop_g a hit anchor1 anchor [r0] token.
Proof.
  induction token as [|c token IH]; intros anchor r0 HA; [reflexivity|]. cbn [loop_0 loop_g next_r]. cbv zeta.
  unfold hit. rewrite hit_g by exact Hk. cbn [fold_left]. rewrite hit_test by (lia || now apply nr0_64).
  destruct (negb _); [reflexivity|]. now apply IH.
Qed.
Lemma agree_1 token : forall anchor r0 r1, is64 anchor -> loop_1 a hit anchor1 anchor r0 r1 token = loop_g a hit anchor1 anchor [r0; r1] token.
Proof.
  induction token as [|c token IH]; intros anchor r0 r1 HA; [reflexivity|]. cbn [loop_1 loop_g next_r]. cbv zeta.
  unfold hit. rewrite hit_g by exact Hk. cbn [fold_left]. rewrite hit_test by (lia || (apply is64_land; now apply nr0_64)). rewrite N.land_spec.
  destruct (negb _); [reflexivity|]. now apply IH.
Qed.
Lemma agree_2 token : forall anchor r0 r1 r2, is64 anchor -> loop_2 a hit anchor1 anchor r0 r1 r2 token = loop_g a hit anchor1 anchor [r0; r1; r2] token.
Proof.
  induction token as [|c token IH]; intros anchor r0 r1 r2 HA; [reflexivity|]. cbn [loop_2 loop_g next_r]. cbv zeta.
  unfold hit. rewrite hit_g by exact Hk. cbn [fold_left]. rewrite hit_test by (lia || (do 2 apply is64_land; now apply nr0_64)). rewrite !N.land_spec.
  destruct (negb _); [reflexivity|]. now apply IH.
Qed.
Lemma agree_3 token : forall anchor r0 r1 r2 r3, is64 anchor -> loop_3 a hit anchor1 anchor r0 r1 r2 r3 token = loop_g a hit anchor1 anchor [r0; r1; r2; r3] token.
Proof.
  induction token as [|c token IH]; intros anchor r0 r1 r2 r3 HA; [reflexivity|]. cbn [loop_3 loop_g next_r]. cbv zeta.
  unfold hit. rewrite hit_g by exact Hk. cbn [fold_left]. rewrite hit_test by (lia || (do 3 apply is64_land; now apply nr0_64)). rewrite !N.land_spec.
  destruct (negb _); [reflexivity|]. now apply IH.
Qed.
End Agree.

Lemma specialised_agree s la n token : all_bytes s -> (1 <= length s <= 31)%nat ->
  substring_match (vector s) (not64 (N.shiftl 1 (N.of_nat (length s) - 1))) la n token =
  substring_match_general (vector s) (not64 (N.shiftl 1 (N.of_nat (length s) - 1))) la token n.
Proof.
  intros HB HL. assert (Hk : N.of_nat (length s) - 1 < 31) by lia.
  assert (Ha : forall c, is64 (ai (vector s) c)) by (intros; now apply vector_64).
  assert (H0 : is64 0) by (intros i _; apply N.bits_0).
  unfold substring_match, substring_match_general.
  destruct n as [|[|[|[|n]]]]; cbn [init_r].
  - apply agree_0; auto using is64_anchor.
  - apply agree_1; auto using is64_anchor.
  - apply agree_2; auto using is64_anchor.
  - apply agree_3; auto using is64_anchor.
  - reflexivity.
Qed.

(* ---- what the bits mean ---- *)
Section Meaning.
Variable s : bytes.
Hypothesis HB : all_bytes s.
Hypothesis HL : (1 <= length s <= 31)%nat.
Variable la : bool.
(* B d k u: "the first k pattern letters are matched, with d errors, ending at the end of u". *)
Variable B : nat -> nat -> bytes -> Prop.
Hypothesis B_start : forall d i, (i < length s)%nat -> B d (S i) [] <-> (S i <= d)%nat.
Hypothesis B_first : forall d u c, B d 1 (u ++ [c]) <-> (nth 0 s 256 = c /\ (la = false \/ u = [])) \/ (1 <= d)%nat.
Hypothesis B_next : forall d i u c, (S i < length s)%nat ->
  B d (S (S i)) (u ++ [c]) <->
    (nth (S i) s 256 = c /\ B d (S i) u) \/
    (exists e, d = S e /\ (B e (S i) u \/ B e (S (S i)) u \/ B e (S i) (u ++ [c]))).

Definition row (d : nat) (u : bytes) (r : N) : Prop :=
  forall i, (i < length s)%nat -> N.testbit r (N.of_nat i) = false <-> B d (S i) u.
Fixpoint rows (d : nat) (u : bytes) (rs : list N) : Prop :=
  match rs with [] => True | r :: rs' => row d u r /\ rows (S d) u rs' end.

Definition anch (u : bytes) : N := match u with [] => 0 | _ => anchor_bit la end.
Lemma tb_anch u i : N.testbit (anch u) i = false <-> i <> 0 \/ la = false \/ u = [].
Proof.
  unfold anch. destruct u as [|b u]; [rewrite N.bits_0; tauto|]. rewrite tb_anchor. rewrite andb_false_iff, N.eqb_neq.
  split; [tauto|]. intros [H|[H|H]]; [tauto|tauto|discriminate].
Qed.
Lemma tb_vec c i : c < 256 -> (i < length s)%nat -> N.testbit (ai (vector s) c) (N.of_nat i) = false <-> nth i s 256 = c.
Proof. intros Hc Hi. rewrite vector_ok by (assumption || lia). rewrite negb_false_iff. apply N.eqb_eq. Qed.

(* first term: match *)
Lemma term_match d u c r i : c < 256 -> row d u r -> (i < length s)%nat ->
  N.testbit (N.lor (N.lor (shl r) (anch u)) (ai (vector s) c)) (N.of_nat i) = false <->
  nth i s 256 = c /\ match i with O => la = false \/ u = [] | S j => B d (S j) u end.
Proof.
  intros Hc HR Hi. rewrite !N.lor_spec, !orb_false_iff, tb_anch, tb_vec by assumption. destruct i as [|j].
  - cbn [N.of_nat]. change (N.of_nat 0) with 0. rewrite tb_shl0. intuition congruence.
  - replace (N.of_nat (S j)) with (N.of_nat j + 1) by lia. rewrite tb_shlS by lia. rewrite (HR j) by lia. split; [tauto|].
    intros [H1 H2]. split; [split; [assumption|]|assumption]. left. lia.
Qed.
Lemma row_0 u c r : c < 256 -> row 0 u r -> row 0 (u ++ [c]) (N.lor (N.lor (shl r) (anch u)) (ai (vector s) c)).
Proof.
  intros Hc HR i Hi. rewrite (term_match 0) by assumption. destruct i as [|j].
  - rewrite B_first. split; [tauto|]. intros [H|H]; [tauto|lia].
  - rewrite B_next by assumption. split; [tauto|]. intros [H|(e & H & _)]; [tauto|discriminate].
Qed.
Lemma row_S d u c r rp nrp : c < 256 -> row (S d) u r -> row d u rp -> row d (u ++ [c]) nrp ->
  row (S d) (u ++ [c]) (next (anch u) (ai (vector s) c) r rp nrp).
Proof.
  intros Hc HR HP HN i Hi. unfold next. rewrite !N.land_spec, !andb_false_iff, (term_match (S d)) by assumption. destruct i as [|j].
  - cbn [N.of_nat]. change (N.of_nat 0) with 0. rewrite tb_shl0, B_first. split; [intros _; right; lia|]. intros _. left. now right.
  - rewrite (HP (S j)) by assumption. replace (N.of_nat (S j)) with (N.of_nat j + 1) by lia. rewrite tb_shlS, N.land_spec, andb_false_iff by lia.
    rewrite (HP j), (HN j) by lia. rewrite B_next by assumption. split.
    + intros [[H|[H|H]]|H]; [now left|right..]; exists d; auto.
    + intros [H|(e & E & H)]; [tauto|]. injection E as <-. tauto.
Qed.
Lemma rows_next rs : forall d u c rp nrp, c < 256 -> rows (S d) u rs -> row d u rp -> row d (u ++ [c]) nrp ->
  rows (S d) (u ++ [c]) (next_r (anch u) (ai (vector s) c) rp nrp rs).
Proof.
  induction rs as [|r rs IH]; intros d u c rp nrp Hc HR HP HN; cbn [next_r rows]; [trivial|]. destruct HR as [HR HR'].
  split; [now apply row_S|]. apply IH; auto. now apply row_S.
Qed.
Lemma next_r_len anchor x rs : forall rp nrp, length (next_r anchor x rp nrp rs) = length rs.
Proof. induction rs as [|r rs IH]; intros; cbn; auto. Qed.

(* The last row implies all the others. *)
Hypothesis B_mono : forall d k u, B d k u -> B (S d) k u.
Lemma any_row rs : forall d u b, rows d u rs -> 
  (b = false -> B (d + length rs - 1) (length s) u) ->
  (rs = [] -> b = false <-> B (d - 1) (length s) u) ->
  fold_left (fun b y => b && N.testbit y (N.of_nat (length s) - 1)) rs b = false <-> B (d + length rs - 1) (length s) u.
Proof.
  induction rs as [|r rs IH]; intros d u b HR Hb Hn; cbn [fold_left length].
  - rewrite Hn by reflexivity. now replace (d + 0 - 1)%nat with (d - 1)%nat by lia.
  - destruct HR as [H HR']. pose proof (H (length s - 1)%nat ltac:(lia)) as HX.
    replace (N.of_nat (length s - 1)) with (N.of_nat (length s) - 1) in HX by lia.
    replace (S (length s - 1)) with (length s) in HX by lia.
    replace (d + S (length rs) - 1)%nat with (S d + length rs - 1)%nat by lia.
    assert (MM : forall j, B d (length s) u -> B (d + j) (length s) u).
    { intros j HJ. induction j; [now rewrite Nat.add_0_r|]. rewrite Nat.add_succ_r. now apply B_mono. }
    apply IH; [assumption| |].
    + rewrite andb_false_iff, HX. intros [E|E].
      * cbn [length] in Hb. replace (S d + length rs - 1)%nat with (d + S (length rs) - 1)%nat by lia. auto.
      * replace (S d + length rs - 1)%nat with (d + length rs)%nat by lia. auto.
    + intros ->. replace (S d - 1)%nat with d by lia. rewrite andb_false_iff, HX. split; [|auto]. intros [E|E]; [|assumption].
      cbn [length] in Hb. replace (d + 1 - 1)%nat with d in Hb by lia. auto.
Qed.
Lemma loop_g_ok token : forall u r0 rs, all_bytes token -> row 0 u r0 -> rows 1 u rs ->
  loop_g (vector s) (not64 (N.shiftl 1 (N.of_nat (length s) - 1))) (anchor_bit la) (anch u) (r0 :: rs) token = true <->
  exists v, v <> [] /\ prefix_of v token /\ B (length rs) (length s) (u ++ v).
Proof.
  induction token as [|c token IH]; intros u r0 rs HT H0 HR; cbn [loop_g]; cbv zeta.
  - split; [discriminate|]. intros (v & V1 & [post V2] & _). symmetry in V2. apply app_eq_nil in V2. tauto.
  - inversion HT as [|? ? Hc HT']; subst. unfold is_byte in Hc. rewrite hit_g by lia.
    pose proof (row_0 u c r0 Hc H0) as N0. set (nr0 := N.lor _ _) in *.
    pose proof (rows_next rs 0 u c r0 nr0 Hc HR H0 N0) as NR. set (nrs := next_r _ _ _ _ _) in *.
    assert (LN : length nrs = length rs) by apply next_r_len.
    pose proof (any_row nrs 1 (u ++ [c]) (N.testbit nr0 (N.of_nat (length s) - 1)) NR) as AR.
    replace (1 + length nrs - 1)%nat with (length rs) in AR by lia.
    pose proof (N0 (length s - 1)%nat ltac:(lia)) as HX.
    replace (N.of_nat (length s - 1)) with (N.of_nat (length s) - 1) in HX by lia.
    replace (S (length s - 1)) with (length s) in HX by lia.
    assert (MM : forall j, B 0 (length s) (u ++ [c]) -> B j (length s) (u ++ [c])).
    { intros j HJ. induction j; auto. }
    specialize (AR ltac:(intros E; apply MM; now apply HX)).
    specialize (AR ltac:(intros E; rewrite E in LN; exact HX)).
    destruct (fold_left _ nrs _) eqn:EF; cbn [negb].
    + replace (anchor_bit la) with (anch (u ++ [c])) by (unfold anch; destruct u; reflexivity).
      assert (HA : anch (u ++ [c]) = anchor_bit la) by (unfold anch; destruct u; reflexivity). rewrite HA at 1.
      rewrite IH by assumption. rewrite LN. split.
      * intros (v & V1 & [post V2] & V3). exists (c :: v). split; [discriminate|]. split; [exists post; cbn; now rewrite V2|].
        rewrite <- app_assoc in V3. exact V3.
      * intros (v & V1 & [post V2] & V3). destruct v as [|c' v]; [congruence|]. injection V2 as <- V2. exists v. split.
        -- intros ->. apply AR in V3. discriminate.
        -- split; [now exists post|]. rewrite <- app_assoc. exact V3.
    + split; [intros _|reflexivity]. exists [c]. split; [discriminate|]. split; [now exists token|]. now apply AR.
Qed.
Lemma rows_start n : forall d r, (forall i, (i < 64)%nat -> N.testbit r (N.of_nat i) = negb (i <? d)%nat) -> rows d [] (init_r n r).
Proof.
  induction n as [|n IH]; intros d r H; cbn [init_r rows].
  - split; [|trivial]. intros i Hi. rewrite H by lia. rewrite B_start by assumption. rewrite negb_false_iff. rewrite Nat.ltb_lt. lia.
  - split; [intros i Hi; rewrite H by lia; rewrite B_start by assumption; rewrite negb_false_iff, Nat.ltb_lt; lia|].
    apply IH. intros [|i] Hi; [apply tb_shl0|]. replace (N.of_nat (S i)) with (N.of_nat i + 1) by lia. rewrite tb_shlS by lia.
    rewrite H by lia. reflexivity.
Qed.
Lemma init_r_len n : forall r, length (init_r n r) = S n.
Proof. induction n; intros; cbn; auto. Qed.
Lemma general_ok n token : all_bytes token ->
  substring_match_general (vector s) (not64 (N.shiftl 1 (N.of_nat (length s) - 1))) la token n = true <->
  exists v, v <> [] /\ prefix_of v token /\ B n (length s) v.
Proof.
  intros HT. unfold substring_match_general.
  assert (RS : rows 0 [] (init_r n ones64)) by (apply rows_start; intros i Hi; rewrite tb_ones by lia; reflexivity).
  pose proof (init_r_len n ones64) as LI. destruct (init_r n ones64) as [|r0 rs]; [discriminate|]. cbn [rows] in RS. destruct RS as [R0 RS].
  change 0 with (anch []). rewrite (loop_g_ok token [] r0 rs HT R0 RS). cbn [app length] in *. now replace (length rs) with n by lia.
Qed.
End Meaning.

(* ---- the two families ---- *)
Definition suffix_of (v u : bytes) : Prop := exists pre, u = pre ++ v.
Definition unanch (s : bytes) (d k : nat) (u : bytes) : Prop := exists v, suffix_of v u /\ within d (firstn k s) v.
Definition pfx (s : bytes) (d k : nat) (u : bytes) : Prop := within d (firstn k s) u.

Lemma firstn_snoc (s : bytes) i : (i < length s)%nat -> firstn (S i) s = firstn i s ++ [nth i s 256].
Proof.
  revert i. induction s as [|a s IH]; intros i H; [cbn in H; lia|]. destruct i as [|i]; [reflexivity|].
  cbn [firstn nth app]. f_equal. apply IH. cbn in H. lia.
Qed.
Lemma suffix_snoc v u c : suffix_of v (u ++ [c]) <-> v = [] \/ exists v', v = v' ++ [c] /\ suffix_of v' u.
Proof.
  split.
  - intros [pre H]. destruct v as [|x v] using rev_ind; [now left|]. right. rewrite app_assoc in H. apply app_inj_tail in H as [H1 H2]. subst x.
    exists v. split; [reflexivity|]. now exists pre.
  - intros [->|(v' & -> & pre & ->)]; [exists (u ++ [c]); now rewrite app_nil_r|]. exists pre. now rewrite app_assoc.
Qed.
Lemma within_any n s t : within n s t -> forall m, (n <= m)%nat -> within m s t.
Proof. intros H m Hm. induction Hm; [assumption|now apply within_S]. Qed.

Lemma unanch_step s d i u c : (i < length s)%nat ->
  unanch s d (S i) (u ++ [c]) <->
  (nth i s 256 = c /\ unanch s d i u) \/ (exists e, d = S e /\ (unanch s e i u \/ unanch s e (S i) u \/ unanch s e i (u ++ [c]))).
Proof.
  intros Hi. unfold unanch. rewrite (firstn_snoc s i Hi). split.
  - intros (v & HS & HW). apply within_last in HW as [(t' & -> & HW)|[(m & t' & c' & -> & -> & HW)|(m & -> & HW)]].
    + apply suffix_snoc in HS as [HS|(v' & E & HS)]; [now apply app_eq_nil in HS as [_ HS]|]. apply app_inj_tail in E as [<- E]. left. split; [exact E|]. eauto.
    + apply suffix_snoc in HS as [HS|(v' & E & HS)]; [now apply app_eq_nil in HS as [_ HS]|]. apply app_inj_tail in E as [<- E]. right.
      exists m. split; [reflexivity|]. destruct HW as [HW|HW]; [left|right; left]; eauto.
    + right. exists m. split; [reflexivity|]. right; right. eauto.
  - assert (W1 : forall a b, within 1 [a] [b]) by (intros; apply (W_subst 0); constructor).
    assert (W2 : forall b, within 1 [] [b]) by (intros; apply (W_insert 0); constructor).
    assert (W3 : forall a, within 1 [a] []) by (intros; apply (W_delete 0); constructor).
    intros [[E (v & HS & HW)]|(e & -> & [(v & HS & HW)|[(v & HS & HW)|(v & HS & HW)]])].
    + exists (v ++ [c]). split; [apply suffix_snoc; eauto|]. rewrite E. eapply within_snoc; [exact HW|apply (W_same 0); constructor|lia].
    + exists (v ++ [c]). split; [apply suffix_snoc; eauto|]. eapply within_snoc; [exact HW|apply W1|lia].
    + exists (v ++ [c]). split; [apply suffix_snoc; eauto|]. rewrite <- (app_nil_r (_ ++ _)). eapply within_snoc; [exact HW|apply W2|lia].
    + exists v. split; [assumption|]. rewrite <- (app_nil_r v). eapply within_snoc; [exact HW|apply W3|lia].
Qed.
Lemma pfx_step s d i u c : (i < length s)%nat ->
  pfx s d (S i) (u ++ [c]) <->
  (nth i s 256 = c /\ pfx s d i u) \/ (exists e, d = S e /\ (pfx s e i u \/ pfx s e (S i) u \/ pfx s e i (u ++ [c]))).
Proof.
  intros Hi. unfold pfx. rewrite (firstn_snoc s i Hi). split.
  - intros HW. apply within_last in HW as [(t' & E & HW)|[(m & t' & c' & -> & E & HW)|(m & -> & HW)]].
    + apply app_inj_tail in E as [<- E]. left. auto.
    + apply app_inj_tail in E as [<- E]. right. exists m. split; [reflexivity|]. tauto.
    + right. exists m. auto.
  - assert (W1 : forall a b, within 1 [a] [b]) by (intros; apply (W_subst 0); constructor).
    assert (W2 : forall b, within 1 [] [b]) by (intros; apply (W_insert 0); constructor).
    assert (W3 : forall a, within 1 [a] []) by (intros; apply (W_delete 0); constructor).
    intros [[E HW]|(e & -> & [HW|[HW|HW]])].
    + rewrite E. eapply within_snoc; [exact HW|apply (W_same 0); constructor|lia].
    + eapply within_snoc; [exact HW|apply W1|lia].
    + rewrite <- (app_nil_r (_ ++ _)). eapply within_snoc; [exact HW|apply W2|lia].
    + rewrite <- (app_nil_r (u ++ [c])). eapply within_snoc; [exact HW|apply W3|lia].
Qed.
Lemma unanch_0 s d u : unanch s d 0 u.
Proof. exists []. split; [exists u; now rewrite app_nil_r|]. cbn. constructor. Qed.
Lemma unanch_start s d k : (k <= length s)%nat -> unanch s d k [] <-> (k <= d)%nat.
Proof.
  intros Hk. unfold unanch. split.
  - intros (v & [pre E] & HW). symmetry in E. apply app_eq_nil in E as [_ ->]. apply within_nil in HW. rewrite firstn_length in HW. lia.
  - intros H. exists []. split; [now exists []|]. apply within_nil. rewrite firstn_length. lia.
Qed.
Lemma unanch_mono s d k u : unanch s d k u -> unanch s (S d) k u.
Proof. intros (v & H1 & H2). exists v. split; [assumption|now apply within_S]. Qed.

Lemma unanch_general s n token : all_bytes s -> (1 <= length s <= 31)%nat -> all_bytes token ->
  substring_match_general (vector s) (not64 (N.shiftl 1 (N.of_nat (length s) - 1))) false token n = true <->
  exists v, v <> [] /\ prefix_of v token /\ unanch s n (length s) v.
Proof.
  intros HB HL HT. apply general_ok; try assumption.
  - intros d i Hi. apply unanch_start. lia.
  - intros d u c. rewrite unanch_step by lia. split.
    + intros [[H _]|(e & -> & _)]; [left; auto|right; lia].
    + intros [[H _]|H]; [left; split; [assumption|apply unanch_0]|]. right. destruct d; [lia|]. exists d. split; [reflexivity|]. left. apply unanch_0.
  - intros d i u c Hi. apply unanch_step. assumption.
  - apply unanch_mono.
Qed.

(* Anchored: what the code's rows mean once an error has been spent on the first letter. *)
Definition anchd (s : bytes) (d k : nat) (u : bytes) : Prop :=
  pfx s d k u \/ exists e, d = S e /\ unanch (tl s) e (k - 1) u.
Lemma pfx_start s d k : (k <= length s)%nat -> pfx s d k [] <-> (k <= d)%nat.
Proof. intros Hk. unfold pfx. rewrite within_nil, firstn_length. lia. Qed.
Lemma tl_nth (s : bytes) i d : nth i (tl s) d = nth (S i) s d.
Proof. destruct s; [destruct i; reflexivity|reflexivity]. Qed.
Lemma tl_len (s : bytes) : length (tl s) = (length s - 1)%nat.
Proof. destruct s; cbn; lia. Qed.
Lemma anchd_general s n token : all_bytes s -> (1 <= length s <= 31)%nat -> all_bytes token ->
  substring_match_general (vector s) (not64 (N.shiftl 1 (N.of_nat (length s) - 1))) true token n = true <->
  exists v, v <> [] /\ prefix_of v token /\ anchd s n (length s) v.
Proof.
  intros HB HL HT. apply general_ok; try assumption.
  - intros d i Hi. unfold anchd. rewrite pfx_start by lia. split; [|tauto]. intros [H|(e & -> & H)]; [assumption|].
    apply unanch_start in H; [lia|]. rewrite tl_len. lia.
  - intros d u c. unfold anchd. rewrite pfx_step by lia. split.
    + intros [[[H1 H2]|(e & -> & _)]|(e & -> & _)]; [|right; lia|right; lia].
      destruct d as [|d]; [|right; lia]. left. split; [assumption|]. right. unfold pfx in H2. cbn [firstn] in H2. now apply within_0 in H2.
    + intros [[H1 [H2|H2]]|H]; [discriminate| |].
      * left. left. split; [assumption|]. subst u. unfold pfx. cbn. constructor.
      * destruct d as [|d]; [lia|]. right. exists d. split; [reflexivity|]. apply unanch_0.
  - intros d i u c Hi. unfold anchd. rewrite pfx_step by assumption.
    replace (S (S i) - 1)%nat with (S i) by lia. replace (S i - 1)%nat with i by lia.
    assert (HT' : (i < length (tl s))%nat) by (rewrite tl_len; lia). split.
    + intros [[H|(e & -> & H)]|(e & -> & H)]; [tauto|right; exists e; tauto|].
      apply (unanch_step (tl s) e i u c HT') in H as [[H1 H2]|(e' & -> & H)].
      * left. rewrite tl_nth in H1. split; [assumption|]. right. eauto.
      * right. exists (S e'). split; [reflexivity|]. destruct H as [H|[H|H]]; [left|right; left|right; right]; right; eauto.
    + intros [[H1 [H2|(e & -> & H2)]]|(e & -> & H)].
      * left. left. auto.
      * right. exists e. split; [reflexivity|]. apply unanch_step; [assumption|]. left. now rewrite tl_nth.
      * destruct H as [[H|(e' & -> & H)]|[[H|(e' & -> & H)]|[H|(e' & -> & H)]]].
        -- left. right. exists e. tauto.
        -- right. exists (S e'). split; [reflexivity|]. apply unanch_step; [assumption|]. right. exists e'. tauto.
        -- left. right. exists e. tauto.
        -- right. exists (S e'). split; [reflexivity|]. apply unanch_step; [assumption|]. right. exists e'. tauto.
        -- left. right. exists e. tauto.
        -- right. exists (S e'). split; [reflexivity|]. apply unanch_step; [assumption|]. right. exists e'. tauto.
  - intros d k u [H|(e & -> & H)]; [left; now apply within_S|right]. exists (S e). split; [reflexivity|]. now apply unanch_mono.
Qed.

(* ---- statements ---- *)
Lemma build_ok s : (1 <= length s <= 31)%nat -> build_match_vector s = Ok (vector s, not64 (N.shiftl 1 (N.of_nat (length s) - 1))).
Proof.
  intros H. unfold build_match_vector. destruct ((31 <? N.of_nat (length s)) || (N.of_nat (length s) =? 0)) eqn:E; [|reflexivity].
  apply orb_true_iff in E as [E|E]; [apply N.ltb_lt in E|apply N.eqb_eq in E]; lia.
Qed.
Lemma build_bad s : ~ (1 <= length s <= 31)%nat -> build_match_vector s = Err (E_exit 2).
Proof.
  intros H. unfold build_match_vector. destruct ((31 <? N.of_nat (length s)) || (N.of_nat (length s) =? 0)) eqn:E; [reflexivity|].
  apply orb_false_iff in E as [E1 E2]. apply N.ltb_ge in E1. apply N.eqb_neq in E2. lia.
Qed.
Lemma match_word_total la n s w : all_bytes s -> (1 <= length s <= 31)%nat ->
  match_word la n s w = Ok (substring_match_general (vector s) (not64 (N.shiftl 1 (N.of_nat (length s) - 1))) la w n).
Proof. intros HB HL. unfold match_word. rewrite build_ok by assumption. cbn [bind]. now rewrite specialised_agree. Qed.

Lemma Ok_true (b : bool) : Ok b = Ok true <-> b = true.
Proof. split; [now intros [= ->]|now intros ->]. Qed.

Lemma approx_exact n s w : all_bytes s -> (1 <= length s <= 31)%nat -> all_bytes w -> w <> [] ->
  (exists b, match_word false n s w = Ok b) /\
  (match_word false n s w = Ok true <-> exists part, part_of part w /\ within n s part).
Proof.
  intros HB HL HT HW. rewrite match_word_total by assumption. split; [eauto|].
  rewrite Ok_true, unanch_general by assumption. unfold unanch. rewrite firstn_all. split.
  - intros (v & V1 & [post V2] & part & [pre V3] & V4). exists part. split; [|assumption]. exists pre, post. subst. now rewrite <- app_assoc.
  - intros (part & (pre & post & E) & H). subst w. destruct (pre ++ part) as [|x l] eqn:EP.
    + apply app_eq_nil in EP as [-> ->]. cbn [app] in *. destruct post as [|c post]; [congruence|]. exists [c]. split; [discriminate|].
      split; [now exists post|]. exists []. split; [now exists [c]|assumption].
    + exists (x :: l). split; [discriminate|]. split; [exists post; rewrite <- EP; now rewrite app_assoc|]. exists part. split; [|assumption].
      now exists pre.
Qed.
Lemma exact_substring s w : all_bytes s -> (1 <= length s <= 31)%nat -> all_bytes w ->
  (exists b, match_word false 0 s w = Ok b) /\ (match_word false 0 s w = Ok true <-> part_of s w).
Proof.
  intros HB HL HT. destruct w as [|c w].
  - unfold match_word. rewrite build_ok by assumption. cbn [bind]. split; [eauto|]. unfold substring_match, substring_match_0. cbn [loop_0].
    split; [discriminate|]. intros (pre & post & E). symmetry in E. apply app_eq_nil in E as [_ E]. apply app_eq_nil in E as [E _]. subst. cbn in HL. lia.
  - destruct (approx_exact 0 s (c :: w) HB HL HT ltac:(discriminate)) as [A ->]. split; [assumption|]. split.
    + intros (p & H1 & H2). apply within_0 in H2. now subst.
    + intros H. exists s. split; [assumption|now apply within_0].
Qed.
Lemma anchored_exact s w : all_bytes s -> (1 <= length s <= 31)%nat -> all_bytes w ->
  (exists b, match_word true 0 s w = Ok b) /\ (match_word true 0 s w = Ok true <-> prefix_of s w).
Proof.
  intros HB HL HT. rewrite match_word_total by assumption. split; [eauto|]. rewrite Ok_true, anchd_general by assumption. unfold anchd, pfx.
  rewrite firstn_all. split.
  - intros (v & V1 & V2 & [V3|(e & V3 & _)]); [|discriminate]. apply within_0 in V3. now subst.
  - intros H. exists s. split; [intros ->; cbn in HL; lia|]. split; [assumption|]. left. now apply within_0.
Qed.
Lemma anchored_errors n s w : all_bytes s -> (1 <= length s <= 31)%nat -> all_bytes w -> w <> [] ->
  match_word true (S n) s w = Ok true <->
  (exists p, prefix_of p w /\ within (S n) s p) \/ (exists p, part_of p w /\ within n (tl s) p).
Proof.
  intros HB HL HT HW. rewrite match_word_total by assumption. rewrite Ok_true, anchd_general by assumption. unfold anchd, pfx, unanch.
  rewrite firstn_all. assert (E1 : firstn (length s - 1) (tl s) = tl s) by (rewrite <- tl_len; apply firstn_all). rewrite E1. split.
  - intros (v & V1 & V2 & [V3|(e & E & p & [pre V3] & V4)]); [left; eauto|]. injection E as <-. right. exists p. split; [|assumption].
    destruct V2 as [post V2]. exists pre, post. subst. now rewrite <- app_assoc.
  - assert (RR : (exists p, part_of p w /\ within n (tl s) p) ->
      exists v, v <> [] /\ prefix_of v w /\ (within (S n) s v \/ (exists e, S n = S e /\ exists v0, suffix_of v0 v /\ within e (tl s) v0))).
    { intros (p & (pre & post & E) & H). subst w. destruct (pre ++ p) as [|x l] eqn:EP.
      - apply app_eq_nil in EP as [-> ->]. cbn [app] in *. destruct post as [|c post]; [congruence|]. exists [c]. split; [discriminate|].
        split; [now exists post|]. right. exists n. split; [reflexivity|]. exists []. split; [now exists [c]|assumption].
      - exists (x :: l). split; [discriminate|]. split; [exists post; rewrite <- EP; now rewrite app_assoc|]. right. exists n.
        split; [reflexivity|]. exists p. split; [|assumption]. now exists pre. }
    intros [(p & P1 & P2)|H]; [|now apply RR]. destruct p as [|c p].
    + apply RR. exists []. split; [now exists [], w|]. apply within_nil. apply within_nil in P2. rewrite tl_len. lia.
    + exists (c :: p). split; [discriminate|]. split; [assumption|now left].
Qed.
Lemma specialised_equal s la n w a hit : all_bytes s -> build_match_vector s = Ok (a, hit) ->
  substring_match a hit la n w = substring_match_general a hit la w n.
Proof.
  intros HB H. destruct (le_dec 1 (length s)) as [H1|H1], (le_dec (length s) 31) as [H2|H2];
    try (rewrite build_bad in H by lia; discriminate).
  rewrite build_ok in H by lia. injection H as <- <-. apply specialised_agree; [assumption|lia].
Qed.
Lemma anchored_refuted : exists s w, (1 <= length s <= 31)%nat /\ all_bytes s /\ all_bytes w /\
  match_word true 1 s w = Ok true /\ ~ exists p, prefix_of p w /\ within 1 s p.
Proof.
  exists (bs "abc"), (bs "xxxxbc"). split; [cbn; lia|]. split; [repeat constructor|]. split; [repeat constructor|]. split; [now vm_compute|].
  intros (p & [post E] & H).
  assert (HX : forall q r, bs "xxxxbc" = q ++ r -> In q [[]; bs "x"; bs "xx"; bs "xxx"; bs "xxxx"; bs "xxxxb"; bs "xxxxbc"]).
  { intros q r. vm_compute (bs _). intros HQ. do 6 (destruct q as [|? q]; [cbn; tauto|injection HQ as <- HQ]). destruct q; [cbn; tauto|discriminate]. }
  apply HX in E. vm_compute in E, H.
  repeat (destruct E as [<-|E]; [repeat match goal with H : within _ _ _ |- _ => inversion H; clear H; subst end|]). destruct E.
Qed.
