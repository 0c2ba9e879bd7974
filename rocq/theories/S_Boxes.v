(* A mailbox as the mails it consists of, and what is assumed of the way mailboxes change. *)
From Verif Require Import Base M_DbFile M_Mbox S_Mbox S_Multipart M_Update S_Update M_Session S_Session.
Local Open Scope N_scope.

(* A mail is the rest of its separator line after "From ", and a text. *)
Definition mail : Type := bytes * bytes.
Definition box_text (mails : list mail) : bytes := flat_map (fun m => bs "From " ++ fst m ++ [10] ++ snd m) mails.
(* Where the texts begin and how long they are; the first separator line begins at p. *)
Fixpoint places (p : N) (mails : list mail) : list (N * N) :=
  match mails with
  | [] => []
  | (l, t) :: r => let st := p + N.of_nat (length l) + 6 in (st, N.of_nat (length t)) :: places (st + N.of_nat (length t)) r
  end.

(* [sep r]: a line that has "From " before r is a separator line.  [open t]: t is the beginning of a message in
   parts whose last boundary has not come yet. *)
Section Mails.
Variable sep : bytes -> Prop.
Variable open : bytes -> Prop.
(* Within the text t, after a, stands a line that looks like a separator. *)
Definition looks_inside (t a : bytes) : Prop := whole_lines a /\ exists b rest, t = a ++ bs "From " ++ b /\ sep (b ++ rest).
(* The text is one of whole lines and not empty; if one of its lines looks like a separator, it is inside a
   message in parts, and is not the last line; there are not 100 of these lines. *)
Record mail_ok (m : mail) : Prop := {
  mo_line : ~ In 10 (fst m);
  mo_sep : forall rest, sep (fst m ++ 10 :: rest);
  mo_some : snd m <> [];
  mo_lines : whole_lines (snd m);
  mo_closed : ~ open (snd m);
  mo_inside : forall a b, whole_lines a -> snd m = a ++ bs "From " ++ b -> (exists rest, sep (b ++ rest)) ->
    open a /\ exists l r, b = l ++ 10 :: r /\ ~ In 10 l /\ r <> [];
  mo_few : forall l, NoDup l -> (forall a, In a l -> looks_inside (snd m) a) -> (length l < 100)%nat }.
End Mails.
(* The same for the recogniser and the parser of a world. *)
Definition mails_ok (W : world) (mails : list mail) : Prop :=
  Forall (mail_ok (fun r => w_from_ok W r = true) (fun t => snd (w_parse W t) = true)) mails.

(* Mailbox p changes only by whole mails: a mail in the index whose bytes are still at their place is still
   the mail with that number; and a file of size 0 is empty. *)
Record settled (p : bytes) (s : session) (file : option bytes) : Prop := {
  se_mails : forall db mb mails i st ln, get_database s file = Ok db -> In mb (mboxen db) -> mb_path mb = Some p ->
    w_map (s_world s) p = Mapped (box_text mails) -> mails_ok (s_world s) mails ->
    i < mb_n mb -> intact (w_csum (s_world s)) mb (box_text mails) i ->
    nth_error (starts mb) (N.to_nat i) = Some (Some st) -> nth_error (lens mb) (N.to_nat i) = Some (Some ln) ->
    nth_error (places 0 mails) (N.to_nat i) = Some (st, ln);
  se_empty : forall l, w_lstat (s_world s) p = Some (l, 0, 0) -> w_map (s_world s) p = Map_empty }.
(* Between session s0 and a later one s, mails have only been appended to mailbox p, unless it has gone. *)
Definition appended (p : bytes) (s0 s : session) : Prop :=
  forall va0 va, w_map (s_world s0) p = Mapped va0 -> w_map (s_world s) p = Mapped va ->
  exists mails more, va0 = box_text mails /\ va = box_text (mails ++ more) /\ mails_ok (s_world s) (mails ++ more).
(* The mailboxes listed only grow by whole mails; a file of size 0 (and modification time 0, as a mailbox new
   to the index has) is empty. *)
Definition growing (h : list (session * option bytes)) : Prop :=
  ForallOrdPairs (fun x y => honest (fst y) (fst x) /\ forall p, In p (s_paths (fst y)) -> appended p (fst y) (fst x)) h /\
  Forall (fun x => forall p l, w_lstat (s_world (fst x)) p = Some (l, 0, 0) -> w_map (s_world (fst x)) p = Map_empty) h.
(* The entries of the index for mailbox p are exactly these mails. *)
Definition enters (db : database) (p : bytes) (mails : list mail) : Prop :=
  (forall k st ln, nth_error (places 0 mails) k = Some (st, ln) -> exists m fi mb, In m (msgs db) /\ src m = S_mbox fi (N.of_nat k) /\
    nth_error (mboxen db) (N.to_nat fi) = Some mb /\ mb_path mb = Some p) /\
  (forall m fi mi mb, In m (msgs db) -> src m = S_mbox fi mi -> nth_error (mboxen db) (N.to_nat fi) = Some mb -> mb_path mb = Some p ->
    exists st ln, nth_error (places 0 mails) (N.to_nat mi) = Some (st, ln) /\
      nth_error (starts mb) (N.to_nat mi) = Some (Some st) /\ nth_error (lens mb) (N.to_nat mi) = Some (Some ln)).
