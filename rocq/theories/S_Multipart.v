(* What the parts of a multipart body are, after RFC 2046, apart from the code. *)
From Verif Require Import Base.
Local Open Scope N_scope.

(* The boundary as it stands in the body, and what follows it: two dashes if it is the last one, else the end of the line. *)
Definition mark (b : bytes) : bytes := bs "--" ++ b.
Definition closing (y : bytes) : Prop := exists r, y = bs "--" ++ r.
Definition line_end (y : bytes) : Prop := y = [10] \/ y = [13; 10].
Definition delimits (y : bytes) : Prop := closing y \/ exists e r, line_end e /\ y = e ++ r.
(* Text that starts at the start of a line ends at the end of one. *)
Definition whole_lines (t : bytes) : Prop := t = [] \/ exists u, t = u ++ [10].
(* Lines none of which is a boundary; the boundary may well occur in them. *)
Definition no_boundary (b t : bytes) : Prop :=
  whole_lines t /\ ~ In 0 t /\ forall x y, t = x ++ mark b ++ y -> whole_lines x -> ~ delimits y.
(* The first boundary, the parts, and the last boundary.  Whatever follows it does not matter. *)
Inductive parted (b : bytes) : list bytes -> bytes -> Prop :=
| parted_last rest : parted b [] (mark b ++ bs "--" ++ rest)
| parted_part e p ps t : line_end e -> no_boundary b p -> parted b ps t -> parted b (p :: ps) (mark b ++ e ++ p ++ t).
Definition multipart (b : bytes) (parts : list bytes) (body : bytes) : Prop :=
  exists preamble t, body = preamble ++ t /\ no_boundary b preamble /\ parted b parts t.
(* A boundary string: within a line. *)
Definition boundary_string (b : bytes) : Prop := ~ In 10 b /\ ~ In 0 b.

(* For any body: the piece that a slice (start, end) stands for, *)
Definition piece (input : bytes) (p : nat * nat) : bytes := firstn (snd p - fst p) (skipn (fst p) input).
(* a place where a boundary stands at the start of a line, *)
Definition boundary_at (b input : bytes) (i : nat) : Prop :=
  (i = 0%nat \/ nth_error input (i - 1) = Some 10) /\ exists y, skipn i input = mark b ++ y.
(* and the place behind the line that starts at i; a NUL ends a line, too, and is not passed. *)
Definition next_line (input : bytes) (i j : nat) : Prop :=
  exists u y, skipn i (input ++ [0]) = u ++ y /\ ~ In 0 u /\
    ((exists v, u = v ++ [10] /\ ~ In 10 v) \/ (~ In 10 u /\ exists r, y = 0 :: r)) /\ j = (i + length u)%nat.
(* What follows a boundary that is a whole line. *)
Definition whole_line (y : bytes) : Prop := exists e r, line_end e /\ (y = e ++ r \/ y = bs "--" ++ e ++ r) \/ y = [] \/ y = bs "--".
