(* Specification vocabulary for lists of message numbers; independent of the model. *)
From Coq Require Import Sorted.
From Verif Require Import Base.
Local Open Scope N_scope.

(* [xs] ascends (repetitions allowed) from [prev]; the first step and every later step is below
   63 * 2^24. *)
Fixpoint ascending_within (prev : N) (xs : list N) : Prop :=
  match xs with
  | [] => True
  | x :: xs' => prev <= x /\ x < prev + 63 * 2 ^ 24 /\ ascending_within x xs'
  end.

(* [ys] is the set of members of [xs], each once, in increasing order. *)
Definition distinct_in_order (xs ys : list N) : Prop :=
  StronglySorted N.lt ys /\ (forall v, In v ys <-> In v xs).
