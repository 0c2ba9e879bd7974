(* Model of md5.c: the checksum kept for each message of a mailbox. *)
From Verif Require Import Base.
Local Open Scope N_scope.

(* md5.c 75-78: F, G, H, I on 32-bit words; ~x is the complement. *)
Definition not32 (x : N) : N := N.lxor x (2 ^ 32 - 1).
Definition fF (x y z : N) : N := N.lor (N.land x y) (N.land (not32 x) z).
Definition fG (x y z : N) : N := N.lor (N.land x z) (N.land y (not32 z)).
Definition fH (x y z : N) : N := N.lxor (N.lxor x y) z.
Definition fI (x y z : N) : N := N.lxor y (N.lor x (not32 z)).
(* md5.c 92 *)
Definition rotate_left (x n : N) : N := N.lor (u32 (N.shiftl x n)) (N.shiftr x (32 - n)).
(* md5.c 98-117: FF, GG, HH, II.  The registers a, b, c, d are numbered 0 to 3. *)
Definition reg (r : list N) (i : nat) : N := nth i r 0.
Definition step (x : list N) (r : list N) (s : (N -> N -> N -> N) * (nat * nat * nat * nat) * nat * N * N) : list N :=
  let '(f, (a, b, c, d), k, rot, ac) := s in
  let v := u32 (reg r a + (f (reg r b) (reg r c) (reg r d) + nth k x 0 + ac)) in
  set_nth r a (u32 (rotate_left v rot + reg r b)).
(* md5.c 227-307: the steps of Transform *)
Definition steps : list ((N -> N -> N -> N) * (nat * nat * nat * nat) * nat * N * N) :=
  [(fF, (0, 1, 2, 3)%nat, 0%nat, 7, 3614090360); (fF, (3, 0, 1, 2)%nat, 1%nat, 12, 3905402710);
   (fF, (2, 3, 0, 1)%nat, 2%nat, 17, 606105819); (fF, (1, 2, 3, 0)%nat, 3%nat, 22, 3250441966);
   (fF, (0, 1, 2, 3)%nat, 4%nat, 7, 4118548399); (fF, (3, 0, 1, 2)%nat, 5%nat, 12, 1200080426);
   (fF, (2, 3, 0, 1)%nat, 6%nat, 17, 2821735955); (fF, (1, 2, 3, 0)%nat, 7%nat, 22, 4249261313);
   (fF, (0, 1, 2, 3)%nat, 8%nat, 7, 1770035416); (fF, (3, 0, 1, 2)%nat, 9%nat, 12, 2336552879);
   (fF, (2, 3, 0, 1)%nat, 10%nat, 17, 4294925233); (fF, (1, 2, 3, 0)%nat, 11%nat, 22, 2304563134);
   (fF, (0, 1, 2, 3)%nat, 12%nat, 7, 1804603682); (fF, (3, 0, 1, 2)%nat, 13%nat, 12, 4254626195);
   (fF, (2, 3, 0, 1)%nat, 14%nat, 17, 2792965006); (fF, (1, 2, 3, 0)%nat, 15%nat, 22, 1236535329);
   (fG, (0, 1, 2, 3)%nat, 1%nat, 5, 4129170786); (fG, (3, 0, 1, 2)%nat, 6%nat, 9, 3225465664);
   (fG, (2, 3, 0, 1)%nat, 11%nat, 14, 643717713); (fG, (1, 2, 3, 0)%nat, 0%nat, 20, 3921069994);
   (fG, (0, 1, 2, 3)%nat, 5%nat, 5, 3593408605); (fG, (3, 0, 1, 2)%nat, 10%nat, 9, 38016083);
   (fG, (2, 3, 0, 1)%nat, 15%nat, 14, 3634488961); (fG, (1, 2, 3, 0)%nat, 4%nat, 20, 3889429448);
   (fG, (0, 1, 2, 3)%nat, 9%nat, 5, 568446438); (fG, (3, 0, 1, 2)%nat, 14%nat, 9, 3275163606);
   (fG, (2, 3, 0, 1)%nat, 3%nat, 14, 4107603335); (fG, (1, 2, 3, 0)%nat, 8%nat, 20, 1163531501);
   (fG, (0, 1, 2, 3)%nat, 13%nat, 5, 2850285829); (fG, (3, 0, 1, 2)%nat, 2%nat, 9, 4243563512);
   (fG, (2, 3, 0, 1)%nat, 7%nat, 14, 1735328473); (fG, (1, 2, 3, 0)%nat, 12%nat, 20, 2368359562);
   (fH, (0, 1, 2, 3)%nat, 5%nat, 4, 4294588738); (fH, (3, 0, 1, 2)%nat, 8%nat, 11, 2272392833);
   (fH, (2, 3, 0, 1)%nat, 11%nat, 16, 1839030562); (fH, (1, 2, 3, 0)%nat, 14%nat, 23, 4259657740);
   (fH, (0, 1, 2, 3)%nat, 1%nat, 4, 2763975236); (fH, (3, 0, 1, 2)%nat, 4%nat, 11, 1272893353);
   (fH, (2, 3, 0, 1)%nat, 7%nat, 16, 4139469664); (fH, (1, 2, 3, 0)%nat, 10%nat, 23, 3200236656);
   (fH, (0, 1, 2, 3)%nat, 13%nat, 4, 681279174); (fH, (3, 0, 1, 2)%nat, 0%nat, 11, 3936430074);
   (fH, (2, 3, 0, 1)%nat, 3%nat, 16, 3572445317); (fH, (1, 2, 3, 0)%nat, 6%nat, 23, 76029189);
   (fH, (0, 1, 2, 3)%nat, 9%nat, 4, 3654602809); (fH, (3, 0, 1, 2)%nat, 12%nat, 11, 3873151461);
   (fH, (2, 3, 0, 1)%nat, 15%nat, 16, 530742520); (fH, (1, 2, 3, 0)%nat, 2%nat, 23, 3299628645);
   (fI, (0, 1, 2, 3)%nat, 0%nat, 6, 4096336452); (fI, (3, 0, 1, 2)%nat, 7%nat, 10, 1126891415);
   (fI, (2, 3, 0, 1)%nat, 14%nat, 15, 2878612391); (fI, (1, 2, 3, 0)%nat, 5%nat, 21, 4237533241);
   (fI, (0, 1, 2, 3)%nat, 12%nat, 6, 1700485571); (fI, (3, 0, 1, 2)%nat, 3%nat, 10, 2399980690);
   (fI, (2, 3, 0, 1)%nat, 10%nat, 15, 4293915773); (fI, (1, 2, 3, 0)%nat, 1%nat, 21, 2240044497);
   (fI, (0, 1, 2, 3)%nat, 8%nat, 6, 1873313359); (fI, (3, 0, 1, 2)%nat, 15%nat, 10, 4264355552);
   (fI, (2, 3, 0, 1)%nat, 6%nat, 15, 2734768916); (fI, (1, 2, 3, 0)%nat, 13%nat, 21, 1309151649);
   (fI, (0, 1, 2, 3)%nat, 4%nat, 6, 4149444226); (fI, (3, 0, 1, 2)%nat, 11%nat, 10, 3174756917);
   (fI, (2, 3, 0, 1)%nat, 2%nat, 15, 718787259); (fI, (1, 2, 3, 0)%nat, 9%nat, 21, 3951481745)].
(* md5.c 219-313: Transform *)
Definition transform (buf x : list N) : list N :=
  let r := fold_left (step x) steps buf in
  [u32 (reg buf 0 + reg r 0); u32 (reg buf 1 + reg r 1); u32 (reg buf 2 + reg r 2); u32 (reg buf 3 + reg r 3)].

(* md5.h MD5_CTX, without digest, which is the result of MD5Final here *)
Record ctx := { bits0 : N; bits1 : N; buf : list N; inb : bytes }.
(* md5.c 122-134: MD5Init; mem is what the array in happens to hold. *)
Definition md5_init (mem : bytes) : ctx :=
  {| bits0 := 0; bits1 := 0; buf := [1732584193; 4023233417; 2562383102; 271733878]; inb := mem |}.
(* md5.c 163-167, 199-203: in[i] from the bytes 4i..4i+3 *)
Fixpoint words (s : bytes) : list N :=
  match s with
  | a :: b :: c :: d :: s' =>
    N.lor (N.lor (N.lor (u32 (N.shiftl d 24)) (N.shiftl c 16)) (N.shiftl b 8)) a :: words s'
  | _ => []
  end.
(* md5.c 157-171: the loop of MD5Update *)
Fixpoint feed (s : bytes) (bf : list N) (i : bytes) (mdi : nat) : res (list N * bytes) :=
  match s with
  | [] => Ok (bf, i)
  | c :: s' =>
    if (mdi <? 64)%nat then
      let i' := set_nth i mdi c in
      if (S mdi =? 64)%nat then feed s' (transform bf (words i')) i' 0 else feed s' bf i' (S mdi)
    else Err E_oob
  end.
(* md5.c 139-173: MD5Update; inLen is the length of the data, an unsigned int *)
Definition md5_update (c : ctx) (s : bytes) : res ctx :=
  let len := u32 (N.of_nat (length s)) in
  let mdi := N.to_nat (N.land (N.shiftr (bits0 c) 3) 63) in
  let b1 := if u32 (bits0 c + u32 (N.shiftl len 3)) <? bits0 c then u32 (bits1 c + 1) else bits1 c in
  let b0 := u32 (bits0 c + u32 (N.shiftl len 3)) in
  let b1 := u32 (b1 + N.shiftr len 29) in
  let! (bf, i) := feed (firstn (N.to_nat len) s) (buf c) (inb c) mdi in
  Ok {| bits0 := b0; bits1 := b1; buf := bf; inb := i |}.
(* md5.c 63-72 *)
Definition padding : bytes := 128 :: repeat 0 63.
(* md5.c 206-214 *)
Definition store_word (w : N) : bytes :=
  [N.land w 255; N.land (N.shiftr w 8) 255; N.land (N.shiftr w 16) 255; N.land (N.shiftr w 24) 255].
(* md5.c 179-215: MD5Final, with the digest as its result *)
Definition md5_final (c : ctx) : res bytes :=
  let in14 := bits0 c in
  let in15 := bits1 c in
  let mdi := N.land (N.shiftr (bits0 c) 3) 63 in
  let pad_len := if mdi <? 56 then 56 - mdi else 120 - mdi in
  if 64 <? pad_len then Err E_oob else
  let! c := md5_update c (firstn (N.to_nat pad_len) padding) in
  let x := firstn 14 (words (inb c)) ++ [in14; in15] in
  Ok (flat_map store_word (transform (buf c) x)).
(* mbox.c 106-114: compute_checksum.  len is a size_t, cut to an unsigned int by the call. *)
Definition compute_checksum (mem data : bytes) : res bytes :=
  let! c := md5_update (md5_init mem) data in
  md5_final c.
(* Successive calls of MD5Update. *)
Fixpoint md5_updates (c : ctx) (l : list bytes) : res ctx :=
  match l with
  | [] => Ok c
  | s :: l' => let! c := md5_update c s in md5_updates c l'
  end.
