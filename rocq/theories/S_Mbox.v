(* What the messages of a mailbox file are, and which leading messages are unchanged. *)
From Verif Require Import Base M_DbFile M_Mbox.
Local Open Scope N_scope.

(* The file from offset p on. *)
Definition from (va : bytes) (p : N) : bytes := skipn (N.to_nat p) va.

Section Split.
Variable from_ok : bytes -> bool.   (* is the text after "From " a separator line's? *)
Variable va : bytes.                (* the file *)
Variable b : N.                     (* where scanning starts; it counts as the start of a line *)

Definition line_start (p : N) : Prop := p = b \/ (b < p /\ nth_error va (N.to_nat (p - 1)) = Some 10).
(* A separator line begins at p. *)
Definition separator (p : N) : Prop :=
  line_start p /\ exists rest, from va p = bs "From " ++ rest /\ from_ok rest = true.
(* The line that begins at p is followed by a line that begins at q. *)
Definition next_line_at (p q : N) : Prop :=
  exists l r, from va p = l ++ 10 :: r /\ ~ In 10 l /\ r <> [] /\ q = p + N.of_nat (length l) + 1.
(* A message: it starts on the line after a separator line and goes on to the next separator line,
   or to the end of the file. *)
Definition is_message (m : N * N) : Prop :=
  (exists p, separator p /\ next_line_at p (fst m))
  /\ (forall q, separator q -> fst m <= q -> fst m + snd m <= q)
  /\ (separator (fst m + snd m) \/ fst m + snd m = N.of_nat (length va)).
(* q lies on a separator line. *)
Definition on_separator (q : N) : Prop :=
  exists p, separator p /\ p <= q /\ forall k, p <= k < q -> nth_error va (N.to_nat k) <> Some 10.
Definition in_message (ms : list (N * N)) (q : N) : Prop := exists m, In m ms /\ fst m <= q < fst m + snd m.
(* In file order and not overlapping. *)
Definition in_file_order (ms : list (N * N)) : Prop :=
  forall i j m m', (i < j)%nat -> nth_error ms i = Some m -> nth_error ms j = Some m' -> fst m + snd m < fst m'.
End Split.

(* Where scanning starts: at the beginning, or just after the last message kept. *)
Definition scan_start (after : option (N * N)) : N := match after with None => 0 | Some (s, l) => s + l end.

(* MMDF: messages between pairs of separator lines of four control-A. *)
Definition ends_line (a : bytes) : Prop := a = [] \/ exists a', a = a' ++ [10].
(* The first separator in t comes after the text a, and is followed by c. *)
Definition first_sep (t a c : bytes) : Prop :=
  t = a ++ mmdf_sep ++ c /\ ends_line a
  /\ forall a' c', ends_line a' -> t = a' ++ mmdf_sep ++ c' -> (length a <= length a')%nat.
Definition no_sep (t : bytes) : Prop := forall a c, ends_line a -> t <> a ++ mmdf_sep ++ c.
(* The messages of text s, which begins at offset o.  Reading ends at the first place where a
   separator is missing. *)
Inductive mmdf_messages : N -> bytes -> list (N * N) -> Prop :=
| Mm_end o s : (forall r, s <> mmdf_sep ++ r) -> mmdf_messages o s []
| Mm_last o body : no_sep body -> mmdf_messages o (mmdf_sep ++ body) [(o + 5, N.of_nat (length body))]
| Mm_more o s body s' ms : first_sep s body s' -> mmdf_messages (o + N.of_nat (length body) + 10) s' ms ->
    mmdf_messages o (mmdf_sep ++ s) ((o + 5, N.of_nat (length body)) :: ms).

(* Message i of mailbox mb is unchanged in the file va. *)
Definition intact (csum : bytes -> bytes) (mb : mbox) (va : bytes) (i : N) : Prop :=
  exists s l, nth_error (starts mb) (N.to_nat i) = Some (Some s) /\ nth_error (lens mb) (N.to_nat i) = Some (Some l)
  /\ s + l <= N.of_nat (length va)
  /\ nth_error (checks mb) (N.to_nat i) = Some (csum (firstn (N.to_nat l) (skipn (N.to_nat s) va))).
(* Start, length and checksum of every message are known. *)
Definition places_known (mb : mbox) : Prop := forall i, i < mb_n mb ->
  exists s l c, nth_error (starts mb) (N.to_nat i) = Some (Some s) /\ nth_error (lens mb) (N.to_nat i) = Some (Some l)
  /\ nth_error (checks mb) (N.to_nat i) = Some c.
(* k is the length of the longest prefix of unchanged messages. *)
Definition longest_intact_prefix (csum : bytes -> bytes) (mb : mbox) (va : bytes) (k : N) : Prop :=
  k <= mb_n mb /\ (forall i, i < k -> intact csum mb va i) /\ (k < mb_n mb -> ~ intact csum mb va k).
