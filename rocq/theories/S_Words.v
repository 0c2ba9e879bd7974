(* Encoded words in header values, after RFC 2047, apart from the code. *)
From Verif Require Import Base S_Decode.
Local Open Scope N_scope.

Definition occurs (a b : N) (s : bytes) : Prop := exists x y, s = x ++ a :: b :: y.
(* =?charset?encoding?text?= *)
Definition word (charset enc text : bytes) : bytes := bs "=?" ++ charset ++ bs "?" ++ enc ++ bs "?" ++ text ++ bs "?=".
(* What the text of a word means: Q, with _ for a space; B is base64. *)
Inductive q_of : bytes -> bytes -> Prop :=
| q_nil : q_of [] []
| q_char c s t : c <> 61 -> c <> 95 -> q_of s t -> q_of (c :: s) (c :: t)
| q_space s t : q_of s t -> q_of (32 :: s) (95 :: t)
| q_hex x y a b s t : hex x a -> hex y b -> q_of s t -> q_of (16 * a + b :: s) (61 :: x :: y :: t).
Definition means (enc text m : bytes) : Prop :=
  ((enc = bs "q" \/ enc = bs "Q") /\ q_of m text) \/
  ((enc = bs "b" \/ enc = bs "B") /\ Forall (fun c => c < 256) m /\ spread (base64_of m) text).
Definition known (enc : bytes) : Prop := enc = bs "q" \/ enc = bs "Q" \/ enc = bs "b" \/ enc = bs "B".
(* reads t r: the value t is shown as r.  Words in the two encodings are replaced by what they mean, whatever
   their charset; everything else stays. *)
Inductive reads : bytes -> bytes -> Prop :=
| reads_plain t : (forall pre cs enc text post, t <> pre ++ word cs enc text ++ post) -> reads t t
| reads_word pre cs enc text m post r : ~ occurs 61 63 (pre ++ [61]) -> ~ In 63 cs -> ~ In 63 text -> means enc text m ->
    reads post r -> reads (pre ++ word cs enc text ++ post) (pre ++ m ++ r)
| reads_other pre cs enc text post r : ~ occurs 61 63 (pre ++ [61]) -> ~ In 63 cs -> ~ In 63 enc -> ~ known enc -> ~ occurs 63 61 (text ++ [63]) ->
    reads post r -> reads (pre ++ word cs enc text ++ post) (pre ++ word cs enc text ++ r).
