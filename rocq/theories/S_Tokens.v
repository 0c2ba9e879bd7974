(* What the words of a text, of an HTML text and of a message are. *)
From Verif Require Import Base M_Tokens.
From Verif Require Export S_Search.
Local Open Scope N_scope.

(* Characters of ordinary words, and of whole addresses. *)
Definition word_char (alnum : N -> bool) (c : N) : Prop := alnum c = true \/ c = ch "_".
Definition address_char (alnum : N -> bool) (c : N) : Prop :=
  alnum c = true \/ In c (bs "+-.@_").

(* [w] is a maximal non-empty run in [s] of characters satisfying [good], starting at offset [k]. *)
Definition run_at (good : N -> Prop) (s : bytes) (k : nat) (w : bytes) : Prop :=
  exists a b, s = a ++ w ++ b /\ length a = k /\ w <> [] /\ Forall good w
    /\ (forall a' c, a = a' ++ [c] -> ~ good c) /\ (forall c b', b = c :: b' -> ~ good c).
Definition is_run (good : N -> Prop) (s w : bytes) : Prop := exists k, run_at good s k w.

(* [ws] are all the runs of [s], from left to right. *)
Definition runs_of (good : N -> Prop) (s : bytes) (ws : list bytes) : Prop :=
  exists ks : list nat,
    length ks = length ws
    /\ (forall i k w, nth_error ks i = Some k -> nth_error ws i = Some w -> run_at good s k w)
    /\ (forall i j k l, (i < j)%nat -> nth_error ks i = Some k -> nth_error ks j = Some l -> (k < l)%nat)
    /\ (forall k w, run_at good s k w -> exists i, nth_error ks i = Some k /\ nth_error ws i = Some w).

(* The text with every character of a tag, from "<" up to and including the next ">" (or up to
   the end), replaced by "<". *)
Fixpoint blank_tags (in_tag : bool) (s : bytes) : bytes :=
  match s with
  | [] => []
  | c :: s' =>
      if in_tag then ch "<" :: blank_tags (negb (c =? ch ">")) s'
      else if c =? ch "<" then ch "<" :: blank_tags true s'
      else c :: blank_tags false s'
  end.

(* The terms in angle brackets of a header, from left to right. *)
Inductive angled : bytes -> list bytes -> Prop :=
| Ang_none s : (~ exists a w b, s = a ++ ch "<" :: w ++ ch ">" :: b) -> angled s []
| Ang_one a w b ws : ~ In (ch "<") a -> ~ In (ch ">") w -> angled b ws ->
    angled (a ++ ch "<" :: w ++ ch ">" :: b) (w :: ws).

(* The first NUL ends a text. *)
Definition visible (s t : bytes) : Prop := ~ In 0 t /\ (s = t \/ exists u, s = t ++ 0 :: u).

Section Message.
Variable alnum : N -> bool.

Definition address_header (h : headers) (p : part) (t : bytes) : Prop :=
  (p = To /\ h_to h = Some t) \/ (p = Cc /\ h_cc h = Some t) \/ (p = From_ /\ h_from h = Some t).

(* [m] has the word [w] in part [p]. *)
Inductive mentions : rfc822 -> part -> bytes -> Prop :=
| Me_address h atts p t w : address_header h p t ->
    is_run (word_char alnum) t w \/ is_run (address_char alnum) t w -> mentions (Rfc822 h atts) p w
| Me_subject h atts t w : h_subject h = Some t -> is_run (word_char alnum) t w ->
    mentions (Rfc822 h atts) Subject w
| Me_text h atts fn s t w : In (fn, B_plain s) atts -> visible s t -> is_run (word_char alnum) t w ->
    mentions (Rfc822 h atts) Body w
| Me_html h atts fn s t w : In (fn, B_html s) atts -> visible s t ->
    is_run (word_char alnum) (blank_tags false t) w -> mentions (Rfc822 h atts) Body w
| Me_name h atts fn b : In (Some fn, b) atts -> mentions (Rfc822 h atts) Attachment fn
| Me_nested h atts fn m p w : In (fn, B_message (Some m)) atts -> mentions m p w ->
    mentions (Rfc822 h atts) p w.

(* [m] carries the message id [w]; [own] when it is its own. *)
Inductive carries : rfc822 -> bool -> bytes -> Prop :=
| Ca_own h atts t ws w : h_message_id h = Some t -> angled t ws -> In w ws -> carries (Rfc822 h atts) true w
| Ca_reply h atts t ws w : h_in_reply_to h = Some t \/ h_references h = Some t ->
    angled t ws -> In w ws -> carries (Rfc822 h atts) false w
| Ca_nested h atts fn m own w : In (fn, B_message (Some m)) atts -> carries m own w ->
    carries (Rfc822 h atts) own w.
End Message.

(* Where the words of a part are recorded. *)
Definition dest_of (p : part) : dest :=
  match p with To => D_to | Cc => D_cc | From_ => D_from | Subject => D_subject | Body => D_body | Attachment => D_att end.
