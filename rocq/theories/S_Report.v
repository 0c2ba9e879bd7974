(* Specification of the message about memory that cannot be had. *)
From Verif Require Import Base S_Output.
Local Open Scope N_scope.

(* It names the place in the program and the number of bytes asked for. *)
Definition tells (file : bytes) (line size : N) (message : bytes) : Prop :=
  exists l s, written line l /\ written size s /\ message = bs "Out of memory (at " ++ file ++ bs ":" ++ l ++ bs ", " ++ s ++ bs " bytes)" ++ [10].
