(* Model of the text scanners of db.c that turn a parsed message into index entries:
   char_valid_p, tokenise_string, tokenise_html_string, add_angled_terms, tokenise_message
   and scan_maildir_flags.  A string argument is a C string (no NUL); [alnum] is isalnum()
   in the current locale. *)
From Verif Require Import Base.
Local Open Scope N_scope.

(* mairix.h:163-182, struct headers (char * fields may be NULL). *)
Record headers := {
  h_to : option bytes; h_cc : option bytes; h_from : option bytes; h_subject : option bytes;
  h_message_id : option bytes; h_in_reply_to : option bytes; h_references : option bytes;
  h_seen : bool; h_replied : bool; h_flagged : bool; h_date : Z }.

(* mairix.h:140-161 and 183-186, struct attachment and struct rfc822.  The content types
   CT_TEXT_OTHER and CT_OTHER, which are treated alike here, are [B_other].  [None] in
   [B_message] is a NULL data.rfc822.  The bytes of an attachment may contain NULs. *)
Inductive rfc822 :=
| Rfc822 (hdrs : headers) (atts : list (option bytes * body))
with body :=
| B_plain (b : bytes)
| B_html (b : bytes)
| B_message (m : option rfc822)
| B_other (b : bytes).

(* The C string that starts at a buffer: everything before the first NUL.
   rfc822.c allocates one byte more than the data and stores a NUL there. *)
Fixpoint cstr (s : bytes) : bytes :=
  match s with [] => [] | c :: s' => if c =? 0 then [] else c :: cstr s' end.

(* db.c:531-548, special_table *)
Definition special_table : list N :=
  [ 0; 0; 0; 0; 0; 0; 0; 0; 0; 0; 0; 0; 0; 0; 0; 0;
    0; 0; 0; 0; 0; 0; 0; 0; 0; 0; 0; 0; 0; 0; 0; 0;
    0; 0; 0; 0; 0; 0; 0; 0; 0; 0; 0; 2; 0; 2; 2; 0;
    0; 0; 0; 0; 0; 0; 0; 0; 0; 0; 0; 0; 0; 0; 0; 0;
    2; 0; 0; 0; 0; 0; 0; 0; 0; 0; 0; 0; 0; 0; 0; 0;
    0; 0; 0; 0; 0; 0; 0; 0; 0; 0; 0; 0; 0; 0; 0; 3 ] ++ repeat 0 160.

Section Scan.
Variable alnum : N -> bool.

(* db.c:553-559, char_valid_p *)
Definition char_valid_p (x mask : N) : bool :=
  if alnum x then true
  else negb (N.land (nth (N.to_nat x) special_table 0) mask =? 0).

(* db.c:566, while ( *ss && !char_valid_p( *ss,match_mask)) ss++; *)
Fixpoint skip_invalid (mask : N) (ss : bytes) : bytes :=
  match ss with
  | [] => []
  | c :: ss' => if char_valid_p c mask then ss else skip_invalid mask ss'
  end.

(* db.c:569-570 and 600-601: the rest of the run of valid characters, and what follows it *)
Fixpoint take_valid (mask : N) (es : bytes) : bytes * bytes :=
  match es with
  | [] => ([], [])
  | c :: es' => if char_valid_p c mask then let (w, r) := take_valid mask es' in (c :: w, r) else ([], es)
  end.

(* db.c:561-581, tokenise_string: the words passed to add_token_in_file, in order *)
Fixpoint tokenise_loop (fuel : nat) (mask : N) (ss : bytes) : res (list bytes) :=
  match fuel with
  | O => Err E_fuel
  | S f =>
      match skip_invalid mask ss with
      | [] => Ok []
      | c :: es =>
          let (w, es) := take_valid mask es in
          match es with
          | [] => Ok [c :: w]
          | _ => let! ws := tokenise_loop f mask es in Ok ((c :: w) :: ws)
          end
      end
  end.
Definition tokenise_string (data : bytes) (mask : N) : res (list bytes) :=
  tokenise_loop (S (length data)) mask data.

(* db.c:595, while ( *ss && ( *ss != '>')) ss++; *)
Fixpoint skip_tag (ss : bytes) : bytes :=
  match ss with
  | [] => []
  | c :: ss' => if c =? ch ">" then ss else skip_tag ss'
  end.
(* db.c:592-597, the skipping loop of tokenise_html_string *)
Fixpoint skip_html (fuel : nat) (ss : bytes) : res bytes :=
  match fuel with
  | O => Err E_fuel
  | S f =>
      match ss with
      | [] => Ok []
      | c :: ss' =>
          if char_valid_p c 1 then Ok ss
          else skip_html f (if c =? ch "<" then skip_tag ss' else ss')
      end
  end.
(* db.c:583-613, tokenise_html_string *)
Fixpoint tokenise_html_loop (fuel : nat) (ss : bytes) : res (list bytes) :=
  match fuel with
  | O => Err E_fuel
  | S f =>
      let! ss := skip_html (S (length ss)) ss in
      match ss with
      | [] => Ok []
      | c :: es =>
          let (w, es) := take_valid 1 es in
          match es with
          | [] => Ok [c :: w]
          | _ => let! ws := tokenise_html_loop f es in Ok ((c :: w) :: ws)
          end
      end
  end.
Definition tokenise_html_string (data : bytes) : res (list bytes) :=
  tokenise_html_loop (S (length data)) data.

(* strchr(s, c): the part of s from the first c on *)
Fixpoint strchr (c : N) (s : bytes) : option bytes :=
  match s with [] => None | x :: s' => if x =? c then Some s else strchr c s' end.
(* the bytes before the first c, when there is one *)
Fixpoint upto (c : N) (s : bytes) : bytes :=
  match s with [] => [] | x :: s' => if x =? c then [] else x :: upto c s' end.

(* db.c:496-514, add_angled_terms: the terms passed to add_token2_in_file, in order *)
Fixpoint angled_loop (fuel : nat) (left : option bytes) : res (list bytes) :=
  match fuel with
  | O => Err E_fuel
  | S f =>
      match left with
      | None => Ok []
      | Some l =>
          match strchr (ch ">") l with
          | None => Ok []
          | Some rt =>
              let! ws := angled_loop f (strchr (ch "<") rt) in
              Ok (upto (ch ">") (tl l) :: ws)
          end
      end
  end.
Definition angled_terms (s : option bytes) : res (list bytes) :=
  match s with None => Ok [] | Some s => angled_loop (S (length s)) (strchr (ch "<") s) end.

(* One call of add_token_in_file (with the table it goes to) or of add_token2_in_file
   (with add_to_chain1). *)
Inductive dest := D_to | D_cc | D_from | D_subject | D_body | D_att | D_ids (own : bool).

Definition label (d : dest) (r : res (list bytes)) : res (list (dest * bytes)) :=
  let! ws := r in Ok (map (pair d) ws).
Fixpoint in_order {A} (l : list (res (list A))) : res (list A) :=
  match l with
  | [] => Ok []
  | r :: l' => let! a := r in let! b := in_order l' in Ok (a ++ b)
  end.
(* db.c:619-631: an address header is scanned with mask 1, then with mask 2 *)
Definition address_tokens (d : dest) (h : option bytes) : res (list (dest * bytes)) :=
  match h with
  | None => Ok []
  | Some t => in_order [label d (tokenise_string t 1); label d (tokenise_string t 2)]
  end.

(* db.c:615-668, tokenise_message: the calls it makes, in order *)
Fixpoint tokenise_message (msg : rfc822) : res (list (dest * bytes)) :=
  match msg with
  | Rfc822 h atts =>
      in_order
        ([ address_tokens D_to (h_to h);
           address_tokens D_cc (h_cc h);
           address_tokens D_from (h_from h);
           match h_subject h with None => Ok [] | Some t => label D_subject (tokenise_string t 1) end ]
         ++ map (fun a : option bytes * body =>
              let (filename, b) := a in
              in_order
                [ match b with
                  | B_plain s => label D_body (tokenise_string (cstr s) 1)
                  | B_html s => label D_body (tokenise_html_string (cstr s))
                  | B_message (Some m) => tokenise_message m
                  | B_message None => Ok []
                  | B_other _ => Ok []
                  end;
                  match filename with None => Ok [] | Some n => Ok [(D_att, n)] end ]) atts
         ++ [ label (D_ids true) (angled_terms (h_message_id h));
              label (D_ids false) (angled_terms (h_in_reply_to h));
              label (D_ids false) (angled_terms (h_references h)) ])
  end.
End Scan.

(* db.c:678-679: the part of the path from its last ':' on, if there is one.
   Precondition of the C code: the path is not empty (it would step before it). *)
Fixpoint last_colon (path : bytes) : option bytes :=
  match path with
  | [] => None
  | c :: p' => match last_colon p' with
               | Some r => Some r
               | None => if c =? ch ":" then Some path else None
               end
  end.
(* db.c:671-695, scan_maildir_flags: (seen, replied, flagged) *)
Fixpoint flag_letters (p : bytes) (f : bool * bool * bool) : bool * bool * bool :=
  match p with
  | [] => f
  | c :: p' =>
      let '(seen, replied, flagged) := f in
      flag_letters p'
        (if c =? ch "F" then (seen, replied, true)
         else if c =? ch "R" then (seen, true, flagged)
         else if c =? ch "S" then (true, replied, flagged)
         else f)
  end.
Definition scan_maildir_flags (path : bytes) : bool * bool * bool :=
  match last_colon path with
  | None => (false, false, false)
  | Some p => if bytes_eqb (firstn 3 p) (bs ":2,") then flag_letters (skipn 3 p) (false, false, false)
              else (false, false, false)
  end.
