(* What the header of a message is, apart from the code. *)
From Verif Require Import Base.
Local Open Scope N_scope.

(* A field: its first line and the lines that continue it, each white space and a text. *)
Record field := { first : bytes; more : list (bytes * bytes) }.
(* As it stands in the message... *)
Definition folded (f : field) : bytes := first f ++ [10] ++ concat (map (fun x => fst x ++ snd x ++ [10]) (more f)).
(* ... and unfolded: a line break and the white space after it count as the last of these spaces. *)
Definition unfolded (f : field) : bytes := first f ++ concat (map (fun x => last (fst x) 0 :: snd x) (more f)).
(* A text within a line. *)
Definition in_line (s : bytes) : Prop := ~ In 10 s /\ ~ In 0 s.
(* The line that starts a message in a mailbox; such lines are let pass anywhere. *)
Definition from_line (s : bytes) : Prop := exists r, s = bs "From " ++ r \/ s = bs ">From " ++ r.
(* name: value *)
Definition named_line (isspc : N -> bool) (s : bytes) : Prop :=
  exists n r, s = n ++ 58 :: r /\ n <> [] /\ Forall (fun c => c <> 58 /\ isspc c = false) n.
Definition field_ok (isspc : N -> bool) (f : field) : Prop :=
  in_line (first f) /\ (from_line (first f) \/ named_line isspc (first f)) /\
  Forall (fun x => in_line (fst x) /\ in_line (snd x) /\ fst x <> [] /\ Forall (fun c => isspc c = true) (fst x) /\
    exists c t, snd x = c :: t /\ isspc c = false) (more f).
(* "From " lines before the first proper field are not continued. *)
Definition header_ok (isspc : N -> bool) (fs : list field) : Prop :=
  Forall (field_ok isspc) fs /\
  forall a f b, fs = a ++ f :: b -> Forall (fun x => from_line (first x)) (a ++ [f]) -> more f = [].
(* The end of a header: a blank line, or the end of the data, or a NUL; and the body after it. *)
Inductive ends (isspc : N -> bool) : bytes -> bytes -> Prop :=
| ends_blank w body : Forall (fun c => isspc c = true) w -> ~ In 10 w -> ends isspc (w ++ 10 :: body) body
| ends_data : ends isspc [] []
| ends_nul r : ends isspc (0 :: r) (0 :: r).
