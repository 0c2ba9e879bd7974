(* Specification for compressed files: what a file says, and what the decompression library may give. *)
From Verif Require Import Base M_Mapping.
Local Open Scope N_scope.

(* The results rs of successive reads, none of which fails, deliver the text: each read but the last
   fills the buffer, and the last one does not give nothing. *)
Inductive delivers : list (option bytes) -> bytes -> Prop :=
| Delivers_last c : c <> [] -> delivers [Some c] c
| Delivers_more c rs t : N.of_nat (length c) = SIZE_STEP -> delivers rs t -> delivers (Some c :: rs) (c ++ t).

(* A text that can be mapped: it is not empty, and its length fits an int. *)
Definition mappable (t : bytes) : Prop := t <> [] /\ N.of_nat (length t) < 2 ^ 31.

(* A name says a text: a file that is not compressed says what is in it, a compressed one says what is
   delivered when it is decompressed. *)
Definition says (kind : bytes -> compression) (files : bytes -> option node) (reads : compression -> bytes -> option (list (option bytes))) (name t : bytes) : Prop :=
  mappable t /\ exists raw, files name = Some (Regular raw) /\ mappable raw /\
  match kind name with
  | COMPRESSION_NONE => raw = t
  | k => exists rs, reads k name = Some rs /\ delivers rs t
  end.

(* A compressed file is used, then others that are not compressed, then the compressed one again. *)
Definition returns (compressed : bytes -> bool) (names : list bytes) : Prop :=
  exists before z between after, names = before ++ z :: between ++ z :: after /\
    compressed z = true /\ between <> [] /\ Forall (fun n => compressed n = false) between.

(* A name with that ending, in capitals or not, and something before it. *)
Definition same_but_case (c d : N) : Prop := c = d \/ (65 <= c <= 90 /\ d = c + 32).
Definition ends_in (e name : bytes) : Prop := exists stem tail, name = stem ++ tail /\ stem <> [] /\ Forall2 same_but_case tail e.
