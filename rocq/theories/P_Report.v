(* C114: the message about memory that cannot be had. *)
From Verif Require Import Base M_Report S_Output S_Report L_Report.
Local Open Scope N_scope.

(* The message names the place and the size, and the program ends with code 2, for sizes that are not zero and fit an int. *)
Theorem C114_report_partial : forall file line size, 0 < line < 2 ^ 31 -> 0 < size < 2 ^ 31 ->
  exists m, out_of_mem file (Z.of_N line) size = Ok (m, 2) /\ tells file line size m.
Proof. exact report_ok. Qed.
Print Assumptions C114_report_partial.
Example ex_C114 : out_of_mem (bs "tok.c") 141 65530 = Ok (bs "Out of memory (at tok.c:141, 65530 bytes)" ++ [10], 2).
Proof. vm_compute. reflexivity. Qed.

(* Every other size is told wrongly. *)
Theorem C114_report_refuted : forall file line size m code, 0 < line < 2 ^ 31 -> size < 2 ^ 64 -> size = 0 \/ 2 ^ 31 <= size ->
  out_of_mem file (Z.of_N line) size = Ok (m, code) -> ~ tells file line size m.
Proof. exact report_other. Qed.
Print Assumptions C114_report_refuted.
Example ex_C114_refuted : out_of_mem (bs "tok.c") 141 (2 ^ 32 + 5) = Ok (bs "Out of memory (at tok.c:141, 5 bytes)" ++ [10], 2) /\
  out_of_mem (bs "tok.c") 141 0 = Ok (bs "Out of memory (at tok.c:141,  bytes)" ++ [10], 2).
Proof. vm_compute. split; reflexivity. Qed.
