(* Model of hash.c: Bob Jenkins' lookup2. *)
From Verif Require Import Base.
Local Open Scope N_scope.

Definition sub32 (a b : N) : N := u32 (a + 2 ^ 32 - b).
(* one third of a line pair of mix: x -= y; x -= z; x ^= s, the shift s being of z *)
Definition twist (x y z s : N) : N := N.lxor (sub32 (sub32 x y) z) s.
Definition shl32 (x n : N) : N := u32 (N.shiftl x n).
(* hash.c 49-60 mix *)
Definition mix (abc : N * N * N) : N * N * N :=
  let '(a, b, c) := abc in
  let a := twist a b c (N.shiftr c 13) in
  let b := twist b c a (shl32 a 8) in
  let c := twist c a b (N.shiftr b 13) in
  let a := twist a b c (N.shiftr c 12) in
  let b := twist b c a (shl32 a 16) in
  let c := twist c a b (N.shiftr b 5) in
  let a := twist a b c (N.shiftr c 3) in
  let b := twist b c a (shl32 a 10) in
  let c := twist c a b (N.shiftr b 15) in
  (a, b, c).
(* k[0] + (k[1]<<8) + (k[2]<<16) + (k[3]<<24) *)
Definition little (k0 k1 k2 k3 : N) : N := u32 (k0 + N.shiftl k1 8 + N.shiftl k2 16 + N.shiftl k3 24).
(* hash.c 111-118: while (len >= 12); what is left of the key is returned as well *)
Fixpoint absorb (k : bytes) (abc : N * N * N) : bytes * (N * N * N) :=
  match k with
  | k0 :: k1 :: k2 :: k3 :: k4 :: k5 :: k6 :: k7 :: k8 :: k9 :: k10 :: k11 :: k' =>
    let '(a, b, c) := abc in
    absorb k' (mix (u32 (a + little k0 k1 k2 k3), u32 (b + little k4 k5 k6 k7), u32 (c + little k8 k9 k10 k11)))
  | _ => (k, abc)
  end.
(* hash.c 101-142 hashfn.  Of the cases that fall through, those below len add k[i]; the others add
   nothing, as a 0 would. *)
Definition hashfn (initval : N) (k : bytes) : N :=
  let golden := 2654435769 in
  let '(t, (a, b, c)) := absorb k (golden, golden, initval) in
  let at_ i := nth i t 0 in
  let c := u32 (c + N.of_nat (length k)) in
  let c := u32 (c + little 0 (at_ 8%nat) (at_ 9%nat) (at_ 10%nat)) in
  let b := u32 (b + little (at_ 4%nat) (at_ 5%nat) (at_ 6%nat) (at_ 7%nat)) in
  let a := u32 (a + little (at_ 0%nat) (at_ 1%nat) (at_ 2%nat) (at_ 3%nat)) in
  snd (mix (a, b, c)).
