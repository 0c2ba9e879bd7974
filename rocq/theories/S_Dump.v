(* What the dump of an index says, apart from the code and from the file: a listing of its messages, mailboxes and words. *)
From Verif Require Import Base M_Encoding M_TokTable S_TokTable M_DbFile S_DbFile S_Search M_Output M_Dump.
Local Open Scope N_scope.

Section Listing.
Variable P : printf.
Definition num (x : N) : bytes := p_d P (Z.of_N x).
(* numbers, sixteen to a line *)
Definition row (vs : list N) : bytes := concat (map (fun v => num v ++ bs " ") vs) ++ [10].
Inductive rows : list N -> bytes -> Prop :=
| Row_last vs : (length vs <= 16)%nat -> rows vs (row vs)
| Row_more vs ws s : length vs = 16%nat -> ws <> [] -> rows ws s -> rows (vs ++ ws) (row vs ++ s).
(* words with the messages that have them, numbered from k on *)
Inductive words_listed : N -> list (bytes * matches) -> bytes -> Prop :=
| Wl_none k : words_listed k [] []
| Wl_next k w m xs l r s : lists m xs -> rows xs r -> words_listed (k + 1) l s ->
    words_listed k ((w, m) :: l) (bs "Word " ++ num k ++ bs " : <" ++ w ++ bs ">" ++ [10] ++ bs "  " ++ r ++ s).
Definition chain_listed (l : list (bytes * matches)) (s : bytes) : Prop := exists t, words_listed 0 l t /\ s = num (N.of_nat (length l)) ++ bs " entries" ++ [10] ++ t.
Definition title (name : string) : bytes := bs "Contents of <" ++ bs name ++ bs "> table" ++ [10].
Definition rule : bytes := bs "--------------------------------" ++ [10].
Inductive tables_listed : list (toktable matches * string) -> bytes -> Prop :=
| Tl_none : tables_listed [] []
| Tl_next t name l c s : chain_listed (entries t) c -> tables_listed l s -> tables_listed ((t, name) :: l) (title name ++ c ++ rule ++ s).
(* a message: what it is and how it is marked *)
Definition what (db : database) (m : msg) : bytes :=
  match src m with
  | S_dead => bs "DEAD"
  | S_file p _ sz => bs "FILE " ++ p ++ bs ", size=" ++ num sz ++ bs ", tid=" ++ num (tid m)
  | S_imap p => bs "IMAP " ++ p ++ bs ", tid=" ++ num (tid m)
  | S_mbox fi mi => bs "MBOX " ++ num fi ++ bs ", msg " ++ num mi ++
      match place db fi mi with Some (Some st, Some ln) => bs ", offset=" ++ num st ++ bs ", size=" ++ num ln | _ => [] end ++ bs ", tid=" ++ num (tid m)
  end.
Definition message_line (db : database) (k : nat) (m : msg) : bytes :=
  p_6d P (Z.of_nat k) ++ bs ": " ++ what db m ++ (if seen m then bs " seen" else []) ++ (if replied m then bs " replied" else []) ++ (if flagged m then bs " flagged" else []) ++ [10].
Definition mailbox_line (k : nat) (mb : mbox) : bytes :=
  p_4d P (Z.of_nat k) ++ match mb_path mb with Some p => bs ": " ++ num (mb_n mb) ++ bs " msgs in " ++ p | None => bs ": dead" end ++ [10].
Fixpoint numbered {A} (f : nat -> A -> bytes) (k : nat) (l : list A) : bytes := match l with [] => [] | x :: l' => f k x ++ numbered f (S k) l' end.
Definition mailboxes (mbs : list mbox) : bytes :=
  match mbs with [] => [] | _ => [10] ++ bs "MBOX INFORMATION" ++ [10] ++ num (N.of_nat (length mbs)) ++ bs " mboxen" ++ [10] ++ numbered mailbox_line 0 mbs ++ [10] end.
Definition tables_of (db : database) : list (toktable matches * string) :=
  [(d_to db, "To"); (d_cc db, "Cc"); (d_from db, "From"); (d_subject db, "Subject"); (d_body db, "Body"); (d_att db, "Attachment names")]%string.
Definition listing (name : bytes) (db : database) (s : bytes) : Prop :=
  exists ts c0 c1, tables_listed (tables_of db) ts /\ chain_listed (map (fun e => (fst e, fst (snd e))) (entries (d_ids db))) c0 /\ chain_listed (map (fun e => (fst e, snd (snd e))) (entries (d_ids db))) c1 /\
  s = bs "Dump of " ++ name ++ [10] ++ num (n_msgs db) ++ bs " messages" ++ [10] ++ numbered (message_line db) 0 (msgs db) ++ [10] ++ mailboxes (mboxen db) ++
      bs "Hash key " ++ p_08x P (hash_key db) ++ [10] ++ [10] ++ rule ++ ts ++ (title "Message Ids" ++ bs "Chain 0" ++ [10] ++ c0 ++ bs "Chain 1" ++ [10] ++ c1) ++ rule.
End Listing.
(* Sizes, offsets and thread numbers fit an int. *)
Definition small_numbers (db : database) : Prop :=
  forall m, In m (msgs db) -> (src m <> S_dead -> tid m < 2 ^ 31) /\
    match src m with
    | S_file _ _ sz => sz < 2 ^ 31
    | S_mbox fi mi => match place db fi mi with Some (Some st, Some ln) => st < 2 ^ 31 /\ ln < 2 ^ 31 | _ => True end
    | _ => True
    end.
(* C's printf *)
Definition signed (z : Z) : bytes := if (z <? 0)%Z then 45 :: show_int (Z.to_N (- z)) else show_int (Z.to_N z).
Definition padded (n : nat) (s : bytes) : bytes := repeat 32 (n - length s) ++ s.
Fixpoint hex (k : nat) (x : N) : bytes := match k with O => [] | S k' => hex k' (x / 16) ++ [let d := x mod 16 in if d <? 10 then 48 + d else 87 + d] end.
Definition c_printf : printf := {| p_d := signed; p_6d := fun z => padded 6 (signed z); p_4d := fun z => padded 4 (signed z); p_08x := hex 8 |}.
