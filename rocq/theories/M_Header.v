(* Model of rfc822.c: the header of a message.  isspc is isspace() in the current locale.
   The data is the list of its data_len bytes; the code reads no others here. *)
From Verif Require Import Base.
Local Open Scope N_scope.

(* 628-664: one line.  Either the data ends, or a NUL comes, or here is the line, whether it is blank, and the rest. *)
Inductive hline := L_end | L_nul | L_line (text : bytes) (blank : bool) (rest : bytes).
Fixpoint header_line (isspc : N -> bool) (s : bytes) (text : bytes) (blank : bool) : hline :=
  match s with
  | [] => L_end
  | c :: s' =>
    if c =? 0 then L_nul
    else if c =? 10 then L_line (rev text) blank s'
    else header_line isspc s' (c :: text) (if isspc c then blank else false)
  end.
(* 624-667: the lines and what follows them; None is the return value -1 *)
Fixpoint header_lines (isspc : N -> bool) (fuel : nat) (s : bytes) (lines : list bytes) : res (option (list bytes * bytes)) :=
  match fuel with
  | O => Err E_fuel
  | S f =>
    match s with
    | [] => Ok (Some (rev lines, s))
    | c :: _ =>
      if c =? 0 then Ok (Some (rev lines, s)) else
      match header_line isspc s [] true with
      | L_end | L_nul => Ok None
      | L_line text blank s' => if blank then Ok (Some (rev lines, s')) else header_lines isspc f s' (text :: lines)
      end
    end
  end.
(* !strncmp(ref, s, strlen(ref)) *)
Fixpoint prefix (r s : bytes) : bool :=
  match r, s with
  | [], _ => true
  | x :: r', y :: s' => (x =? y) && prefix r' s'
  | _ :: _, [] => false
  end.
(* 181-193: the loop that looks for a word followed by a colon *)
Fixpoint word_colon (isspc : N -> bool) (s : bytes) (saw_char : bool) : bool :=
  match s with
  | [] => false
  | c :: s' => if c =? 58 then saw_char else if isspc c then false else word_colon isspc s' true
  end.
(* 150-215 audit_header *)
Fixpoint audit_header (isspc : N -> bool) (first : bool) (lines : list bytes) : bool :=
  match lines with
  | [] => true
  | x :: lines' =>
    if prefix (bs "From ") x || prefix (bs ">From ") x then audit_header isspc first lines'
    else
      let is_blank := match x with [] => true | _ => false end in
      let has_leading_space := match x with [] => false | c :: _ => isspc c end in
      let has_word_colon := word_colon isspc x false in
      if (first && (is_blank || has_leading_space || negb has_word_colon)) ||
         (negb first && (is_blank || negb (has_leading_space || has_word_colon))) then false
      else audit_header isspc false lines'
  end.
(* 127-130: from the last space of the leading ones *)
Fixpoint last_space (isspc : N -> bool) (prev : N) (s : bytes) : bytes :=
  match s with
  | [] => [prev]
  | c :: s' => if isspc c then last_space isspc c s' else prev :: s
  end.
(* 113-149 splice_header_lines; done holds the lines already dealt with, the last one first.
   Gluing to the line before the first one would use the uninitialised text of the list head. *)
Fixpoint splice_header_lines (isspc : N -> bool) (lines done : list bytes) : res (list bytes) :=
  match lines with
  | [] => Ok (rev done)
  | x :: lines' =>
    match x with
    | c :: x' =>
      if isspc c then
        match done with
        | y :: done' => splice_header_lines isspc lines' ((y ++ last_space isspc c x') :: done')
        | [] => Err E_ub
        end
      else splice_header_lines isspc lines' (x :: done)
    | [] => splice_header_lines isspc lines' (x :: done)
    end
  end.
(* 619-677 split_and_splice_header: the unfolded lines and the data from body_start on *)
Definition split_and_splice_header (isspc : N -> bool) (data : bytes) : res (option (list bytes * bytes)) :=
  let! r := header_lines isspc (S (length data)) data [] in
  match r with
  | None => Ok None
  | Some (lines, body) =>
    if audit_header isspc true lines then
      let! lines := splice_header_lines isspc lines [] in Ok (Some (lines, body))
    else Ok None
  end.
