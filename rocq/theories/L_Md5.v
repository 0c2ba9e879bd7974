(* Lemmas about md5.c: words, bits and the 64 steps. *)
From Coq Require Import Lia.
From Verif Require Import Base M_Md5 S_Md5.
Local Open Scope N_scope.

Definition w32 (x : N) : Prop := x < 2 ^ 32.
Lemma bits_above : forall x i, w32 x -> 32 <= i -> N.testbit x i = false.
Proof.
  intros x i H I. destruct (N.eq_dec x 0) as [->|NZ]; [apply N.bits_0|]. apply N.bits_above_log2.
  apply N.lt_le_trans with 32; [|exact I]. apply N.log2_lt_pow2; [lia|exact H].
Qed.
Lemma bits_small : forall x, (forall i, 32 <= i -> N.testbit x i = false) -> w32 x.
Proof.
  intros x H. assert (E : x = x mod 2 ^ 32).
  { apply N.bits_inj. intro i. destruct (N.lt_ge_cases i 32) as [L|L]; [now rewrite N.mod_pow2_bits_low|]. rewrite N.mod_pow2_bits_high by exact L. now apply H. }
  rewrite E. apply N.mod_lt. discriminate.
Qed.
Lemma u32_w32 : forall x, w32 (u32 x).
Proof. intro x. apply N.mod_lt. discriminate. Qed.
Lemma ones32 : 2 ^ 32 - 1 = N.ones 32.
Proof. reflexivity. Qed.
Lemma not32_bits : forall x i, N.testbit (not32 x) i = if i <? 32 then negb (N.testbit x i) else N.testbit x i.
Proof.
  intros x i. unfold not32. rewrite ones32, N.lxor_spec. destruct (N.ltb_spec i 32) as [L|L].
  - rewrite N.ones_spec_low by exact L. apply xorb_true_r.
  - rewrite N.ones_spec_high by exact L. apply xorb_false_r.
Qed.

Lemma bitwise_from : forall f x y z n s i,
  N.testbit (fold_right (fun i acc => N.b2n (f (N.testbit x i) (N.testbit y i) (N.testbit z i)) + 2 * acc) 0 (map N.of_nat (seq s n))) i =
  if i <? N.of_nat n then f (N.testbit x (N.of_nat s + i)) (N.testbit y (N.of_nat s + i)) (N.testbit z (N.of_nat s + i)) else false.
Proof.
  intros f x y z. induction n as [|n IH]; intros s i.
  - cbn [seq map fold_right]. rewrite N.bits_0. destruct (N.ltb_spec i (N.of_nat 0)); [lia|reflexivity].
  - cbn [seq map fold_right]. destruct (N.eq_dec i 0) as [->|NZ].
    + rewrite N.add_0_r. destruct (N.ltb_spec 0 (N.of_nat (S n))); [|lia]. rewrite N.add_comm. apply N.testbit_0_r.
    + replace i with (N.succ (N.pred i)) at 1 by lia. rewrite N.add_comm, N.testbit_succ_r, IH.
      replace (N.of_nat (S s) + N.pred i) with (N.of_nat s + i) by lia.
      destruct (N.ltb_spec (N.pred i) (N.of_nat n)), (N.ltb_spec i (N.of_nat (S n))); try lia; reflexivity.
Qed.
Lemma bitwise_bits : forall f x y z i, N.testbit (bitwise f x y z) i = if i <? 32 then f (N.testbit x i) (N.testbit y i) (N.testbit z i) else false.
Proof. intros. unfold bitwise. rewrite bitwise_from. reflexivity. Qed.
Definition aux_fun (r : nat) : N -> N -> N -> N := match r with O => fF | 1 => fG | 2 => fH | _ => fI end%nat.
Lemma aux_ok : forall r x y z, w32 x -> w32 y -> w32 z -> aux_fun r x y z = aux r x y z.
Proof.
  intros r x y z X Y Z. unfold aux. destruct r as [|[|[|r]]]; apply N.bits_inj; intro i; rewrite bitwise_bits;
  unfold aux_fun, fF, fG, fH, fI; repeat (rewrite N.lor_spec || rewrite N.land_spec || rewrite N.lxor_spec || rewrite not32_bits);
  (destruct (N.ltb_spec i 32) as [L|L]; [|rewrite !(bits_above _ i) by assumption; try reflexivity]);
  destruct (N.testbit x i), (N.testbit y i), (N.testbit z i); reflexivity.
Qed.
Lemma lor_add : forall a b k, a < 2 ^ k -> N.lor (b * 2 ^ k) a = b * 2 ^ k + a.
Proof.
  intros a b k H. assert (L : N.land (b * 2 ^ k) a = 0).
  { apply N.bits_inj. intro i. rewrite N.land_spec, N.bits_0. destruct (N.lt_ge_cases i k) as [I|I].
    - rewrite N.mul_pow2_bits_low by exact I. reflexivity.
    - replace a with (a mod 2 ^ k) by now apply N.mod_small. rewrite N.mod_pow2_bits_high by exact I. apply andb_false_r. }
  now rewrite <- N.lxor_lor, <- N.add_nocarry_lxor.
Qed.
Lemma rot_ok : forall x n, w32 x -> 0 < n < 32 -> rotate_left x n = rotl x n.
Proof.
  intros x n X Hn. unfold rotate_left, rotl, u32. rewrite N.shiftl_mul_pow2, N.shiftr_div_pow2.
  assert (P : 2 ^ 32 = 2 ^ (32 - n) * 2 ^ n) by (rewrite <- N.pow_add_r; f_equal; lia).
  assert (E : (x * 2 ^ n) mod 2 ^ 32 = x mod 2 ^ (32 - n) * 2 ^ n).
  { rewrite P. apply N.mul_mod_distr_r; apply N.pow_nonzero; discriminate. }
  rewrite E. apply lor_add. apply N.div_lt_upper_bound; [apply N.pow_nonzero; discriminate|]. rewrite <- P. exact X.
Qed.
Lemma add32_u : forall a b, add32 a b = u32 (a + b).
Proof. reflexivity. Qed.
Lemma add32_l : forall a b, u32 (u32 a + b) = u32 (a + b).
Proof. intros. unfold u32. apply N.add_mod_idemp_l. discriminate. Qed.

Lemma add32_3 : forall a f x k, add32 (add32 (add32 a f) x) k = u32 (a + (f + x + k)).
Proof.
  intros. rewrite !add32_u, add32_l. rewrite <- (N.add_assoc (u32 (a + f)) x k), add32_l. f_equal. lia.
Qed.

(* One step.  The registers are read in the order p, q, r, s, each a different one. *)
Definition regs (l : list N) : Prop := length l = 4%nat /\ Forall w32 l.
Definition view (o : nat * nat * nat * nat) (l : list N) : N * N * N * N := let '(p, q, r, s) := o in (reg l p, reg l q, reg l r, reg l s).
Definition next (o : nat * nat * nat * nat) : nat * nat * nat * nat := let '(p, q, r, s) := o in (s, p, q, r).
Definition order (o : nat * nat * nat * nat) : Prop :=
  let '(p, q, r, s) := o in (p < 4 /\ q < 4 /\ r < 4 /\ s < 4 /\ p <> q /\ p <> r /\ p <> s)%nat.
Lemma set_len : forall (A : Type) (l : list A) i x, length (set_nth l i x) = length l.
Proof. induction l as [|y l IH]; intros [|i] x; cbn [set_nth length]; congruence. Qed.
Lemma set_same : forall (A : Type) (l : list A) i x d, (i < length l)%nat -> nth i (set_nth l i x) d = x.
Proof. induction l as [|y l IH]; intros [|i] x d H; cbn in *; [lia|lia|reflexivity|apply IH; lia]. Qed.
Lemma set_other : forall (A : Type) (l : list A) i j x d, i <> j -> nth j (set_nth l i x) d = nth j l d.
Proof. induction l as [|y l IH]; intros [|i] [|j] x d H; cbn; try reflexivity; [congruence|apply IH; congruence]. Qed.
Lemma set_forall : forall (A : Type) (P : A -> Prop) (l : list A) i x, Forall P l -> P x -> Forall P (set_nth l i x).
Proof. induction l as [|y l IH]; intros [|i] x F H; cbn [set_nth]; [constructor|constructor|constructor; [exact H|exact (Forall_inv_tail F)]|]. constructor; [exact (Forall_inv F)|]. apply IH; [exact (Forall_inv_tail F)|exact H]. Qed.
Lemma reg_w32 : forall l i, regs l -> (i < 4)%nat -> w32 (reg l i).
Proof. intros l i [L F] H. rewrite Forall_forall in F. apply F. apply nth_In. lia. Qed.
Lemma step_ok : forall i block l o, regs l -> order o -> 0 < turn i < 32 ->
  let s := (aux_fun (i / 16), o, which i, turn i, nth i sines 0) in
  regs (step block l s) /\ view (next o) (step block l s) = md5_step block (view o l) i.
Proof.
  intros i block l o [L F] O T. destruct o as [[[p q] r] s]. destruct O as (P & Q & R & S & N1 & N2 & N3). cbv zeta.
  unfold step. set (v := u32 (reg l p + _)). split.
  - split; [rewrite set_len; exact L|]. apply set_forall; [exact F|apply u32_w32].
  - unfold next, view, md5_step.
    assert (G : forall j x, p <> j -> reg (set_nth l p x) j = reg l j) by (intros; now apply set_other).
    rewrite (G s), (G q), (G r) by assumption. unfold reg at 2. rewrite set_same by lia. do 3 f_equal.
    assert (E : v = add32 (add32 (add32 (reg l p) (aux (i / 16) (reg l q) (reg l r) (reg l s))) (nth (which i) block 0)) (nth i sines 0)).
    { unfold v. rewrite aux_ok by (apply reg_w32; [split; assumption|lia]). symmetry. apply add32_3. }
    rewrite <- E. rewrite rot_ok by (try exact T; apply u32_w32). rewrite add32_u. f_equal. lia.
Qed.
Fixpoint orders (n : nat) : nat * nat * nat * nat := match n with O => (0, 1, 2, 3) | S n' => next (orders n') end%nat.
Lemma orders_ok : forall n, order (orders n).
Proof.
  assert (G : forall n, In (orders n) [(0, 1, 2, 3); (3, 0, 1, 2); (2, 3, 0, 1); (1, 2, 3, 0)]%nat).
  { induction n as [|n IH]; [now left|]. cbn [orders]. destruct IH as [<-|[<-|[<-|[<-|[]]]]]; cbn; auto 6. }
  intro n. destruct (G n) as [<-|[<-|[<-|[<-|[]]]]]; cbn; lia.
Qed.
Lemma steps_eq : steps = map (fun i => (aux_fun (i / 16), orders i, which i, turn i, nth i sines 0)) (seq 0 64).
Proof. reflexivity. Qed.
Lemma turn_ok : forall i, (i < 64)%nat -> 0 < turn i < 32.
Proof.
  intros i H. assert (C : forallb (fun i => (0 <? turn i) && (turn i <? 32)) (seq 0 64) = true) by reflexivity.
  rewrite forallb_forall in C. specialize (C i ltac:(apply in_seq; lia)). apply andb_prop in C. now rewrite !N.ltb_lt in C.
Qed.
Lemma steps_from : forall block n i l, (i + n <= 64)%nat -> regs l ->
  let l' := fold_left (step block) (map (fun i => (aux_fun (i / 16), orders i, which i, turn i, nth i sines 0)) (seq i n)) l in
  regs l' /\ view (orders (i + n)) l' = fold_left (md5_step block) (seq i n) (view (orders i) l).
Proof.
  intros block. induction n as [|n IH]; intros i l H R; cbn [seq map fold_left]; [rewrite Nat.add_0_r; auto|].
  destruct (step_ok i block l (orders i) R (orders_ok i) (turn_ok i ltac:(lia))) as [R' E]. cbv zeta in *.
  specialize (IH (S i) _ ltac:(lia) R'). cbv zeta in IH. rewrite <- Nat.add_succ_comm. rewrite <- E. exact IH.
Qed.
Definition tuple (l : list N) : N * N * N * N := view (0, 1, 2, 3)%nat l.
Lemma transform_ok : forall block l, regs l -> regs (transform l block) /\ tuple (transform l block) = compress (tuple l) block.
Proof.
  intros block l R. destruct (steps_from block 64 0 l ltac:(lia) R) as [R' E]. cbv zeta in *. rewrite <- steps_eq in *.
  change (orders (0 + 64)) with (0, 1, 2, 3)%nat in E. change (orders 0) with (0, 1, 2, 3)%nat in E. unfold transform. cbv zeta.
  set (l' := fold_left (step block) steps l) in *. split.
  - split; [reflexivity|]. repeat (constructor; [apply u32_w32|]). constructor.
  - unfold compress. change (tuple l) with (reg l 0, reg l 1, reg l 2, reg l 3) at 1. unfold tuple. rewrite <- E. reflexivity.
Qed.
