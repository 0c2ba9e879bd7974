(* The MD5 message digest, after RFC 1321, written independently of md5.c. *)
From Verif Require Import Base.
Local Open Scope N_scope.

(* 32-bit words: sums modulo 2^32 and rotation *)
Definition add32 (a b : N) : N := (a + b) mod 2 ^ 32.
Definition rotl (x n : N) : N := (x * 2 ^ n) mod 2 ^ 32 + x / 2 ^ (32 - n).
(* The auxiliary functions, bit by bit: x decides between y and z, and so on. *)
Definition bitwise (f : bool -> bool -> bool -> bool) (x y z : N) : N :=
  fold_right (fun i acc => N.b2n (f (N.testbit x i) (N.testbit y i) (N.testbit z i)) + 2 * acc) 0 (map N.of_nat (seq 0 32)).
Definition aux (round : nat) : N -> N -> N -> N :=
  bitwise (fun x y z : bool => match round with
    | 0 => if x then y else z
    | 1 => if z then x else y
    | 2 => xorb (xorb x y) z
    | _ => xorb y (x || negb z)
    end)%nat.
(* Which word of the block step i uses, and by how much it rotates. *)
Definition which (i : nat) : nat :=
  match (i / 16)%nat with 0 => i mod 16 | 1 => (5 * i + 1) mod 16 | 2 => (3 * i + 5) mod 16 | _ => (7 * i) mod 16 end%nat.
Definition turn (i : nat) : N :=
  nth (i mod 4) (nth (i / 16) [[7; 12; 17; 22]; [5; 9; 14; 20]; [4; 11; 16; 23]; [6; 10; 15; 21]] []) 0.
(* T: the integer parts of 2^32 |sin i|, i = 1..64 *)
Definition sines : list N :=
  [3614090360; 3905402710; 606105819; 3250441966; 4118548399; 1200080426; 2821735955; 4249261313;
   1770035416; 2336552879; 4294925233; 2304563134; 1804603682; 4254626195; 2792965006; 1236535329;
   4129170786; 3225465664; 643717713; 3921069994; 3593408605; 38016083; 3634488961; 3889429448;
   568446438; 3275163606; 4107603335; 1163531501; 2850285829; 4243563512; 1735328473; 2368359562;
   4294588738; 2272392833; 1839030562; 4259657740; 2763975236; 1272893353; 4139469664; 3200236656;
   681279174; 3936430074; 3572445317; 76029189; 3654602809; 3873151461; 530742520; 3299628645;
   4096336452; 1126891415; 2878612391; 4237533241; 1700485571; 2399980690; 4293915773; 2240044497;
   1873313359; 4264355552; 2734768916; 1309151649; 4149444226; 3174756917; 718787259; 3951481745].
(* One step: the four registers move round. *)
Definition md5_step (block : list N) (r : N * N * N * N) (i : nat) : N * N * N * N :=
  let '(a, b, c, d) := r in
  let t := add32 (add32 (add32 a (aux (i / 16) b c d)) (nth (which i) block 0)) (nth i sines 0) in
  (d, add32 b (rotl t (turn i)), b, c).
Definition compress (r : N * N * N * N) (block : list N) : N * N * N * N :=
  let '(a, b, c, d) := r in
  let '(a', b', c', d') := fold_left (md5_step block) (seq 0 64) r in
  (add32 a a', add32 b b', add32 c c', add32 d d').
(* Numbers as bytes, low-order byte first. *)
Fixpoint little (n : nat) (v : N) : bytes := match n with O => [] | S n' => v mod 256 :: little n' (v / 256) end.
Fixpoint value (s : bytes) : N := match s with [] => 0 | c :: s' => c + 256 * value s' end.
Definition iv : N * N * N * N := (value [1; 35; 69; 103], value [137; 171; 205; 239], value [254; 220; 186; 152], value [118; 84; 50; 16]).
(* d is the digest of m: m, one bit, zeros, and the length in bits make whole blocks of 64 bytes *)
Definition md5_of (m d : bytes) : Prop :=
  exists zeros blocks,
    concat (concat blocks) = m ++ 128 :: repeat 0 zeros ++ little 8 (8 * N.of_nat (length m)) /\
    (zeros < 64)%nat /\
    Forall (fun b => length b = 16%nat /\ Forall (fun w => length w = 4%nat) b) blocks /\
    let '(a, b, c, e) := fold_left compress (map (map value) blocks) iv in
    d = little 4 a ++ little 4 b ++ little 4 c ++ little 4 e.
