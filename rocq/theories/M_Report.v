(* Model of mairix.c 367-415: the message about memory that cannot be had. *)
From Verif Require Import Base.
Local Open Scope N_scope.

(* mairix.c 378-381: the digits from the lowest on, into a buffer of [room] characters *)
Fixpoint low_digits (room : nat) (x : N) : res bytes :=
  if x =? 0 then Ok []
  else match room with
       | O => Err E_oob
       | S room' => let! l := low_digits room' (x / 10) in Ok (48 + x mod 10 :: l)
       end.
(* mairix.c 367-390 emit_int; -x of the smallest int is undefined.  The '0' that is stored at the
   beginning of the buffer (373) is not among the characters between buf1 and p. *)
Definition emit_int (x : Z) : res bytes :=
  if (x =? - 2 ^ 31)%Z then Err E_ub
  else let! l := low_digits 20 (Z.abs_N x) in
       let q := (if (x <? 0)%Z then [45] else []) ++ rev l in
       if (20 <? length q)%nat then Err E_oob else Ok q.
(* mairix.c 392-414 out_of_mem: what is written, and the exit code; size becomes an int when it is
   passed on (409).  write() succeeds. *)
Definition out_of_mem (file : bytes) (line : Z) (size : N) : res (bytes * N) :=
  let! l := emit_int line in
  let! s := emit_int (int_of_u32 (u32 size)) in
  Ok (bs "Out of memory (at " ++ file ++ bs ":" ++ l ++ bs ", " ++ s ++ bs " bytes)" ++ [10], 2).
