(* What a search leaves in the match folder, and what it must leave alone. *)
From Verif Require Import Base M_DbFile S_DbFile M_Search S_Search M_Output.
Local Open Scope N_scope.

(* ---- directories and files ---- *)

(* p is a name in directory dir. *)
Definition inside (dir p : bytes) : Prop := exists n, n <> [] /\ ~ In 47 n /\ p = dir ++ bs "/" ++ n.
(* Names that mairix treats as MH messages: a decimal number, perhaps with a dot at the end (and ".",
   which is the folder itself). *)
Definition mh_name (n : bytes) : Prop := n <> [] /\ exists k, Forall (fun c => 48 <= c <= 57) k /\ (n = k \/ n = k ++ bs ".").
(* The names that belong to the match folder dir: the folder and, in it, the places where results go. *)
Definition in_match_folder (ft : folder_type) (dir p : bytes) : Prop :=
  match ft with
  | FT_maildir => p = dir \/ p = dir ++ bs "/cur" \/ p = dir ++ bs "/new" \/ p = dir ++ bs "/tmp" \/
                  inside (dir ++ bs "/new") p \/ inside (dir ++ bs "/cur") p
  | FT_mh => p = dir \/ exists n, mh_name n /\ p = dir ++ bs "/" ++ n
  | FT_mbox => p = dir
  | FT_raw => False
  end.
(* The places for results alone. *)
Definition result_place (ft : folder_type) (dir p : bytes) : Prop :=
  match ft with
  | FT_maildir => inside (dir ++ bs "/new") p \/ inside (dir ++ bs "/cur") p
  | FT_mh => exists n, mh_name n /\ p = dir ++ bs "/" ++ n
  | _ => False
  end.
(* Files refer to inodes that exist. *)
Definition disc_ok (d : disc) : Prop := forall p i, name d p = Some (File i) -> i < fresh d.
(* Following symbolic links from p. *)
Inductive reaches (d : disc) : bytes -> bytes -> Prop :=
| R_here p : reaches d p p
| R_link p t q : name d p = Some (Link t) -> reaches d (match t with 47 :: _ => t | _ => dir_part p ++ t end) q -> reaches d p q.
(* Reading p does not involve the match folder. *)
Definition apart (ft : folder_type) (dir : bytes) (d : disc) (p : bytes) : Prop :=
  forall q, reaches d p q -> ~ in_match_folder ft dir q.

(* ---- messages ---- *)

(* b is the number n written in decimal. *)
Definition written (n : N) (b : bytes) : Prop :=
  Forall (fun c => 48 <= c <= 57) b /\ fold_left (fun v c => 10 * v + (c - 48)) b 0 = n /\
  match b with [] => False | [_] => True | c :: _ => c <> 48 end.
(* What is printed when n messages were found. *)
Definition says_matched (n : N) (b : bytes) : Prop := exists k, written n k /\ b = bs "Matched " ++ k ++ bs " messages" ++ [10].
(* A message that a maildir match folder must show as new: it lies in a directory called new, or it is
   from a mailbox and has not been read. *)
Definition shown_new (m : msg) : Prop :=
  match src m with
  | S_file q _ _ => exists a n, a <> [] /\ ~ In 47 n /\ q = a ++ bs "/new/" ++ n
  | S_mbox _ _ => seen m = false
  | _ => False
  end.
(* The name of message m in a maildir match folder: in new or cur, with its flags as maildir spells them. *)
Definition maildir_entry (dir : bytes) (m : msg) (p : bytes) : Prop :=
  exists sub base, (shown_new m /\ sub = bs "/new/" \/ ~ shown_new m /\ sub = bs "/cur/") /\
    ~ In 47 base /\ ~ In (ch ":") base /\
    p = dir ++ sub ++ base ++ (if flagged m || replied m || seen m then bs ":2," else []) ++
        (if flagged m then bs "F" else []) ++ (if replied m then bs "R" else []) ++ (if seen m then bs "S" else []).

Section Copies.
Context (csum : bytes -> bytes) (expand : bytes -> bytes -> option bytes) (d : disc) (db : database).

(* The index has message m in mailbox w, at offset st, with length ln and checksum ck. *)
Definition indexed_at (m : msg) (w : bytes) (st ln : N) (ck : bytes) : Prop :=
  exists fi mi mb, src m = S_mbox fi mi /\ nth_error (mboxen db) (N.to_nat fi) = Some mb /\ mb_path mb = Some w /\
    nth_error (starts mb) (N.to_nat mi) = Some (Some st) /\ nth_error (lens mb) (N.to_nat mi) = Some (Some ln) /\
    nth_error (checks mb) (N.to_nat mi) = Some ck.
(* The text now at that place of the mailbox (cut short by the end of the file). *)
Definition text_now (m : msg) (w t : bytes) : Prop :=
  exists st ln ck b, indexed_at m w st ln ck /\ map_file expand d w = Ok (Some b) /\ t = firstn (N.to_nat ln) (skipn (N.to_nat st) b).
(* It has the recorded checksum. *)
Definition unchanged (m : msg) (w t : bytes) : Prop :=
  text_now m w t /\ exists st ln, indexed_at m w st ln (csum t).

(* The mailbox can be read but the text is not the one recorded. *)
Definition changed (m : msg) : Prop := exists w t, text_now m w t /\ ~ unchanged m w t.

(* What name p of the disc e must be for message m, in a maildir or MH match folder: a symbolic link
   to the message (or, if hard is set, another name for its file), or a copy.  The copy of a message
   from a mailbox has a line in front and lacks the last byte. *)
Definition shows_message (imap : bytes -> option bytes) (hard : bool) (m : msg) (e : disc) (p : bytes) : Prop :=
  match src m with
  | S_file q _ _ => if hard then match name d q with Some Dir => name e p = None | n => name e p = n end
                    else name e p = Some (Link q)
  | S_imap q => match imap q with
                | Some t => exists i, name e p = Some (File i) /\ data e i = t
                | None => name e p = None
                end
  | S_mbox _ _ => (forall w t, unchanged m w t -> exists i, name e p = Some (File i) /\ data e i = source_line w ++ removelast t) /\
                  ((forall w t, ~ unchanged m w t) -> name e p = None)
  | S_dead => False
  end.
(* What is appended for message m to an mbox match folder. *)
Definition mbox_record (w t : bytes) : bytes := from_line ++ source_line w ++ t ++ mbox_terminate t.
Definition record_of (imap : bytes -> option bytes) (m : msg) (b : bytes) : Prop :=
  match src m with
  | S_file q _ _ => match map_file expand d q with Ok (Some t) => b = mbox_record q t | _ => b = [] end
  | S_imap q => match imap q with Some t => b = from_line ++ t ++ bs_nl | None => b = [] end
  | S_mbox _ _ => (forall w t, unchanged m w t -> b = mbox_record w t) /\ ((forall w t, ~ unchanged m w t) -> b = [])
  | S_dead => False
  end.
(* The line printed for message m in raw format. *)
Definition raw_line (m : msg) (b : bytes) : Prop :=
  match src m with
  | S_file q _ _ | S_imap q => b = q ++ bs_nl
  | S_mbox _ _ => exists w st ln ck from to, indexed_at m w st ln ck /\ written st from /\ written (st + ln) to /\
      b = bs "mbox:" ++ w ++ bs " [" ++ from ++ bs "," ++ to ++ bs ")" ++ bs_nl
  | S_dead => False
  end.
(* Every mailbox entry has its checksum recorded and lies within the first 2^31 bytes of its file. *)
Definition places_small : Prop := forall m fi mi, In m (msgs db) -> src m = S_mbox fi mi ->
  exists w st ln ck, indexed_at m w st ln ck /\ st < 2 ^ 31 /\ ln < 2 ^ 31.
End Copies.
(* w is the file that holds message m. *)
Definition mail_file (db : database) (m : msg) (w : bytes) : Prop :=
  (exists mt sz, src m = S_file w mt sz) \/ exists st ln ck, indexed_at db m w st ln ck.
(* Indexed mail is not kept in the match folder. *)
Definition mail_apart (ft : folder_type) (dir : bytes) (d : disc) (db : database) : Prop :=
  forall m w, In m (msgs db) -> mail_file db m w -> apart ft dir d w.
(* dir/cur is not a symbolic link. *)
Definition folder_real (ft : folder_type) (d : disc) (dir : bytes) : Prop :=
  match ft with FT_maildir => forall t, name d (dir ++ bs "/cur") <> Some (Link t) | _ => True end.
(* The directories of the match folder exist or can be made, and the places for results are not
   taken by directories. *)
Definition folder_ready (ft : folder_type) (d : disc) (dir : bytes) : Prop :=
  (forall p, In p (match ft with FT_maildir => [dir; dir ++ bs "/cur"; dir ++ bs "/new"; dir ++ bs "/tmp"] | FT_mh => [dir] | _ => [] end) ->
     name d p = None \/ name d p = Some Dir) /\
  (forall p, result_place ft dir p -> name d p <> Some Dir) /\
  (ft = FT_mbox -> name d dir <> Some Dir).
(* No mapping is longer than an int can say. *)
Definition maps_small (expand : bytes -> bytes -> option bytes) (d : disc) : Prop := forall p, exists o, map_file expand d p = Ok o.
(* An empty line at the end. *)
Definition ends_blank (b : bytes) : Prop := exists s, b = s ++ [10; 10].
(* No line of b begins with "From ". *)
Definition no_from (b : bytes) : Prop := forall a c, b = a ++ bs "From " ++ c -> a <> [] /\ last a 0 <> 10.
(* Complete lines, at least one. *)
Definition whole_lines (b : bytes) : Prop := exists s, b = s ++ [10].
(* The part of file va that a pair of offset and length says. *)
Definition part (va : bytes) (m : N * N) : bytes := firstn (N.to_nat (snd m)) (skipn (N.to_nat (fst m)) va).
