(* What a server does with letters it is asked to copy and to delete, and how mairix fills a folder. *)
From Verif Require Import Base M_Imap S_Imap S_Server.
Local Open Scope N_scope.

(* The same letter under another number. *)
Definition same_letter (a b : letter) : Prop := l_flags a = l_flags b /\ l_text a = l_text b.
Definition letters_in (v : post) (f : bytes) : list letter := match box_named v f with Some b => b_letters b | None => [] end.
(* One folder becomes this; the others, and which is open, stay. *)
Definition becomes (v v' : post) (f validity : bytes) (ls : list letter) : Prop :=
  box_named v' f = Some {| b_name := f; b_validity := validity; b_letters := ls |} /\ (forall g, g <> f -> box_named v' g = box_named v g) /\ p_open v' = p_open v.
(* What is done and said at the end. *)
Inductive does (v : post) : request -> list item -> post -> Prop :=
| do_copy u f g w b l b' x more v' : p_open v = Some (g, w) -> box_named v g = Some b -> In l (b_letters b) -> l_uid l = u -> box_named v f = Some b' -> same_letter x l ->
    becomes v v' f (b_validity b') (b_letters b' ++ [x]) -> does v (R_copy u f) (Atom (bs "OK") :: more) v'
| do_not_copy u f more : box_named v f = None -> does v (R_copy u f) (Atom (bs "NO") :: Square [Atom (bs "TRYCREATE")] :: more) v
| do_create f validity more v' : box_named v f = None -> becomes v v' f validity [] -> does v (R_create f) (Atom (bs "OK") :: more) v'
| do_delete f b ls more v' : p_open v = Some (f, true) -> box_named v f = Some b -> Forall (fun l => deleted l = true) ls -> becomes v v' f (b_validity b) ls ->
    does v R_delete (Atom (bs "OK") :: more) v'
| do_nothing f b more : p_open v = Some (f, true) -> box_named v f = Some b -> b_letters b = [] -> does v R_delete (Atom (bs "BAD") :: more) v
| do_expunge f b more v' : p_open v = Some (f, true) -> box_named v f = Some b -> becomes v v' f (b_validity b) (filter (fun l => negb (deleted l)) (b_letters b)) ->
    does v R_expunge (Atom (bs "OK") :: more) v'
| do_append f fl t b u more v' : box_named v f = Some b -> becomes v v' f (b_validity b) (b_letters b ++ [{| l_uid := u; l_flags := fl; l_text := t |}]) ->
    does v (R_append f fl t) (Atom (bs "OK") :: more) v'
| do_not_open f w more : box_named v f = None -> does v (R_open f w) (Atom (bs "NO") :: more) {| p_boxes := p_boxes v; p_open := None |}.
Definition sensible (v : post) (q : request) : Prop :=
  match q with
  | R_copy u f => name_ok f /\ exists g w b l, p_open v = Some (g, w) /\ box_named v g = Some b /\ In l (b_letters b) /\ l_uid l = u
  | R_create f => name_ok f /\ box_named v f = None
  | R_delete | R_expunge => exists f b, p_open v = Some (f, true) /\ box_named v f = Some b
  | R_open f _ => box_named v f = None
  | R_append f fl t => name_ok f /\ box_named v f <> None /\ (forall x, In x fl -> x <> [] /\ Forall (atom_char In_paren) x) /\ N.of_nat (length t) < 2 ^ 31
  | _ => False
  end.
Definition carries_out {S : Type} (view : S -> post) (serve : S -> bytes -> S * option (list bytes)) : Prop :=
  forall s t tag q, received t = Some (tag, asks q) -> sensible (view s) q -> in_order (view s) ->
  exists s' pieces lines ends ts te, serve s t = (s', Some pieces) /\ does (view s) q ends (view s') /\ in_order (view s') /\
    Forall2 (fun is x => line_spelt tag (Says is) x) lines ts /\ line_spelt tag (Ends ends) te /\ concat pieces = concat ts ++ te.

(* A path of a letter that does not lie in the folder that is to be filled. *)
Definition letter_at (v : post) (mf p : bytes) (l : letter) : Prop :=
  exists f b, f <> mf /\ box_named v f = Some b /\ In l (b_letters b) /\ p = path_of b l.
(* The letter that copying or appending is to bring into that folder. *)
Definition brings (v : post) (mf : bytes) (a : act) (l : letter) : Prop :=
  match a with
  | A_copy p => letter_at v mf p l
  | A_append t seen answered flagged => sendable (Str t) /\ no_backslash (Str t) /\ l_text l = t /\
      l_flags l = (if seen then [bs "\Seen"] else []) ++ (if answered then [bs "\Answered"] else []) ++ (if flagged then [bs "\Flagged"] else [])
  | _ => False
  end.
Definition copies (a : act) : Prop := match a with A_copy _ => True | _ => False end.
Definition appends (a : act) : Prop := match a with A_append t _ _ _ => sendable (Str t) /\ no_backslash (Str t) | _ => False end.
