(* Specification of approximate matching, independent of the matchers. *)
From Verif Require Import Base.

(* t is s after at most n single-letter changes: substitutions, insertions, deletions. *)
Inductive within : nat -> bytes -> bytes -> Prop :=
| W_nil n : within n [] []
| W_same n c s t : within n s t -> within n (c :: s) (c :: t)
| W_subst n a b s t : within n s t -> within (S n) (a :: s) (b :: t)
| W_insert n b s t : within n s t -> within (S n) s (b :: t)
| W_delete n a s t : within n s t -> within (S n) (a :: s) t.

(* v is a contiguous part / an initial part of w. *)
Definition part_of (v w : bytes) : Prop := exists pre post, w = pre ++ v ++ post.
Definition prefix_of (v w : bytes) : Prop := exists post, w = v ++ post.
