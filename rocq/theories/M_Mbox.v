(* Model of mbox.c: finding messages in a mailbox file (lines 173-407) and the number of leading
   messages that are unchanged (lines 116-169).  A mapped file is the list of its bytes; offsets are
   numbers.  The separator-line recogniser generated from fromcheck.nfa is the parameter [from_ok]:
   it is given the text after "From " up to the end of the file, as looks_like_from_separator
   (209-241) is.  The checksum is the parameter [csum].  Progress messages are left out. *)
From Verif Require Import Base M_DbFile.
Local Open Scope N_scope.

(* (unsigned long) of a signed char holding ~(1<<k): all 64 bits set but bit k *)
Definition all_but (k : N) : N := 2 ^ 64 - 1 - 2 ^ k.
(* mbox.c:177-185, init_scantabs, and 257, the conversion of fromtab[c] to unsigned long *)
Definition fromtab (c : N) : N :=
  if c =? 10 then all_but 0
  else if c =? ch "F" then all_but 1
  else if c =? ch "r" then all_but 2
  else if c =? ch "o" then all_but 3
  else if c =? ch "m" then all_but 4
  else if c =? ch " " then all_but 5
  else 2 ^ 64 - 1.

Section Scan.
Variable from_ok : bytes -> bool.

(* mbox.c:244-281, find_next_from.  [rest] is the file from offset n on.  The "goto scan_again" of
   line 275 resets reg and looks at the same character again.  ~x on unsigned long is
   [N.ldiff (2 ^ 64 - 1) x]. *)
Fixpoint from_loop (fuel : nat) (n : N) (rest : bytes) (reg : N) : res (option N) :=
  match fuel with
  | O => Err E_fuel
  | S f =>
      match rest with
      | [] => Ok None
      | c :: rest' =>
          let reg := N.lor (u64 (N.shiftl reg 1)) (fromtab c) in
          if negb (N.ldiff (2 ^ 64 - 1) (N.lor reg (all_but 5)) =? 0) then
            if from_ok rest' then Ok (Some (n - 4))
            else from_loop f n rest (fromtab 10)
          else from_loop f (n + 1) rest' reg
      end
  end.
Definition find_next_from (n : N) (va : bytes) : res (option N) :=
  let rest := skipn (N.to_nat n) va in
  from_loop (S (2 * length rest)) n rest (fromtab 10).

(* mbox.c:283-297, start_of_next_line: do c = va[n++] while (n < len && c != '\n').
   [rest] is the file from offset n on; reading past its end is an error. *)
Fixpoint next_line (n : N) (rest : bytes) : res (option N) :=
  match rest with
  | [] => Err E_oob
  | c :: rest' =>
      match rest' with
      | [] => Ok None
      | _ => if c =? 10 then Ok (Some (n + 1)) else next_line (n + 1) rest'
      end
  end.
Definition start_of_next_line (n : N) (va : bytes) : res (option N) := next_line n (skipn (N.to_nat n) va).

(* mbox.c:196-197 *)
Definition mmdftab (c : N) : N := if c =? 10 then 15798545 (* 0xf11111 *) else if c =? 1 then 344864 (* 0x054320 *) else 0.
(* mbox.c:300-317, find_next_mmdfsep *)
Fixpoint mmdf_loop (n : N) (rest : bytes) (state : N) : option N :=
  match rest with
  | [] => None
  | c :: rest' =>
      let state := N.land (N.shiftr (mmdftab c) (state * 4)) 15 in
      if state =? 15 then Some (n - 4) else mmdf_loop (n + 1) rest' state
  end.
Definition find_next_mmdfsep (n : N) (va : bytes) : res (option N) :=
  Ok (mmdf_loop n (skipn (N.to_nat n) va) (N.land (mmdftab 10) 15)).
Definition mmdf_sep : bytes := [1; 1; 1; 1; 10].
(* mbox.c:319-323, skip_mmdfsep *)
Definition skip_mmdfsep (n : N) (va : bytes) : res (option N) :=
  Ok (if bytes_eqb (firstn 5 (skipn (N.to_nat n) va)) mmdf_sep then Some (n + 5) else None).

(* mbox.c:339: is the file in MMDF format? *)
Definition is_mmdf (va : bytes) : bool := (10 <? N.of_nat (length va)) && bytes_eqb (firstn 5 va) mmdf_sep.

(* mbox.c:364-398, the loop of build_new_message_list.  [mmdf] is 0 or 5; end_from + mmdf is 4 when
   end_from is -1 and mmdf is 5.  The result is the list of (start, len). *)
Fixpoint msg_loop (fuel : nat) (mmdf : N) (message_start find_next : N -> bytes -> res (option N))
         (va : bytes) (start_from : option N) : res (list (N * N)) :=
  match fuel with
  | O => Err E_fuel
  | S f =>
      match start_from with
      | None => Ok []
      | Some sf =>
          let! sp := message_start sf va in
          match sp with
          | None => Ok []
          | Some start_pos =>
              let! ef := find_next start_pos va in
              let len := match ef with None => N.of_nat (length va) - start_pos | Some e => e - start_pos end in
              let next_from := match ef with
                               | Some e => Some (e + mmdf)
                               | None => if mmdf =? 0 then None else Some (mmdf - 1)
                               end in
              let! l := msg_loop f mmdf message_start find_next va next_from in
              Ok ((start_pos, len) :: l)
          end
      end
  end.
(* mbox.c:327-407, build_new_message_list; [after] is (start, len) of the last message kept, if any *)
Definition build_new_message_list (after : option (N * N)) (va : bytes) : res (list (N * N)) :=
  let mm := is_mmdf va in
  let mmdf := if mm then 5 else 0 in
  let message_start := if mm then skip_mmdfsep else start_of_next_line in
  let find_next := if mm then find_next_mmdfsep else find_next_from in
  let start_from := match after with None => 0 | Some (s, l) => s + l + mmdf end in
  let! sf := find_next start_from va in
  msg_loop (S (S (length va))) mmdf message_start find_next va sf.
End Scan.

Section Intact.
Variable csum : bytes -> bytes.

(* start[idx] or len[idx] of a mailbox: outside the array, or an element never written *)
Definition elem (a : list (option N)) (i : N) : res N :=
  match nth_error a (N.to_nat i) with
  | None => Err E_oob
  | Some None => Err E_ub
  | Some (Some v) => Ok v
  end.
(* mbox.c:116-135, message_is_intact (and 106-114, compute_checksum, through [csum]) *)
Definition message_is_intact (mb : mbox) (idx : N) (va : bytes) : res bool :=
  let! s := elem (starts mb) idx in
  let! l := elem (lens mb) idx in
  if N.of_nat (length va) <? s + l then Ok false
  else
    let! c := fetch (nth_error (checks mb) (N.to_nat idx)) in
    Ok (bytes_eqb c (csum (firstn (N.to_nat l) (skipn (N.to_nat s) va)))).

(* mbox.c:157-165, the binary chop *)
Fixpoint chop (fuel : nat) (mb : mbox) (va : bytes) (l h : N) : res N :=
  match fuel with
  | O => Err E_fuel
  | S f =>
      if l <? h then
        let m := (h + l) / 2 in
        if m =? l then Ok l
        else let! b := message_is_intact mb m va in
             if b then chop f mb va m h else chop f mb va l m
      else Ok l
  end.
(* mbox.c:137-169, find_number_intact *)
Definition find_number_intact (mb : mbox) (va : bytes) : res N :=
  if mb_n mb =? 0 then Ok 0
  else
    let! b := message_is_intact mb (mb_n mb - 1) va in
    if b then Ok (mb_n mb)
    else
      let! b := message_is_intact mb 0 va in
      if negb b then Ok 0
      else let! l := chop (S (N.to_nat (mb_n mb))) mb va 0 (mb_n mb) in Ok (l + 1).
End Intact.
