(* Bit-level arithmetic lemmas and lifting of finite sweeps over bytes. *)
From Verif Require Import Base.
Local Open Scope N_scope.

Lemma lor_add_disjoint a k c : a < 2 ^ k -> N.lor a (N.shiftl c k) = a + N.shiftl c k.
Proof.
  intros H.
  assert (HL : N.land a (N.shiftl c k) = 0).
  { apply N.bits_inj; intro n. rewrite N.land_spec, N.bits_0.
    destruct (N.lt_ge_cases n k) as [L|G].
    - rewrite N.shiftl_spec_low by lia. apply andb_false_r.
    - destruct (N.eq_dec a 0) as [->|Hz]; [now rewrite N.bits_0|].
      rewrite (N.bits_above_log2 a n); [reflexivity|].
      apply N.lt_le_trans with k; [|lia].
      apply N.log2_lt_pow2; lia. }
  rewrite <- N.lxor_lor by exact HL. symmetry. now apply N.add_nocarry_lxor.
Qed.

Lemma lor_add_pow2 a k : a < 2 ^ k -> N.lor a (2 ^ k) = a + 2 ^ k.
Proof.
  intros H. rewrite <- (N.shiftl_1_l k). now apply lor_add_disjoint.
Qed.

Lemma shiftr_div a k : N.shiftr a k = a / 2 ^ k.
Proof. apply N.shiftr_div_pow2. Qed.
Lemma shiftl_mul a k : N.shiftl a k = a * 2 ^ k.
Proof. apply N.shiftl_mul_pow2. Qed.
Lemma land_mod a k : N.land a (N.ones k) = a mod 2 ^ k.
Proof. apply N.land_ones. Qed.
Lemma land255 a : N.land a 255 = a mod 256.
Proof. exact (N.land_ones a 8). Qed.
Lemma land63 a : N.land a 63 = a mod 64.
Proof. exact (N.land_ones a 6). Qed.
Lemma land127 a : N.land a 127 = a mod 128.
Proof. exact (N.land_ones a 7). Qed.
Lemma land7 a : N.land a 7 = a mod 8.
Proof. exact (N.land_ones a 3). Qed.
Lemma land65535 a : N.land a 65535 = a mod 65536.
Proof. exact (N.land_ones a 16). Qed.

(* All bytes, for sweeps. *)
Definition byte_range : list N := map N.of_nat (seq 0 256).
Lemma byte_range_in b : b < 256 -> In b byte_range.
Proof.
  intros H. unfold byte_range. apply in_map_iff. exists (N.to_nat b). split; [lia|].
  apply in_seq. lia.
Qed.
Lemma byte_sweep (f : N -> bool) : forallb f byte_range = true -> forall b, b < 256 -> f b = true.
Proof.
  intros H b Hb. rewrite forallb_forall in H. apply H. now apply byte_range_in.
Qed.

Lemma u32_small x : x < 2 ^ 32 -> u32 x = x.
Proof. intros H. unfold u32. now apply N.mod_small. Qed.
