(* Model of rfc822.c, decode_header_value: RFC 2047 words, decoded in place.
   mem is the memory from text on; p, q, s, a, b, e are offsets into it. *)
From Verif Require Import Base M_Decode.
Local Open Scope N_scope.

Definition read (mem : bytes) (i : nat) : res N := match nth_error mem i with Some c => Ok c | None => Err E_oob end.
Definition write (mem : bytes) (i : nat) (c : N) : res bytes := if (i <? length mem)%nat then Ok (set_nth mem i c) else Err E_oob.
(* strchr(s, a), as an offset from s; a is not NUL *)
Fixpoint strchr (a : N) (s : bytes) : res (option nat) :=
  match s with
  | [] => Err E_oob
  | c :: s' => if c =? a then Ok (Some O) else if c =? 0 then Ok None else let! r := strchr a s' in Ok (option_map S r)
  end.
(* strstr(s, "ab"), as an offset from s; a and b are not NUL *)
Fixpoint strstr (a b : N) (s : bytes) : res (option nat) :=
  match s with
  | [] => Err E_oob
  | c :: s' =>
    if c =? 0 then Ok None
    else if c =? a then
      match s' with
      | [] => Err E_oob
      | d :: _ => if d =? b then Ok (Some O) else let! r := strstr a b s' in Ok (option_map S r)
      end
    else let! r := strstr a b s' in Ok (option_map S r)
  end.
(* 304-305: while (q != s) copy one byte, n times *)
Fixpoint copy (n : nat) (mem : bytes) (p q : nat) : res (bytes * nat * nat) :=
  match n with
  | O => Ok (mem, p, q)
  | S n' => let! c := read mem q in let! mem := write mem p c in copy n' mem (S p) (S q)
  end.
(* 319-333: the text of a q word *)
Fixpoint q_text (fuel : nat) (mem : bytes) (p q e : nat) : res (bytes * nat) :=
  match fuel with
  | O => Err E_fuel
  | S f =>
    if (q <? e)%nat then
      let! c := read mem q in
      if c =? 95 then let! mem := write mem p 32 in q_text f mem (S p) (S q) e
      else if c =? 61 then
        let! x := read mem (q + 1) in
        let! y := read mem (q + 2) in
        let! mem := write mem p ((hex_to_val x * 16 + hex_to_val y) mod 256) in
        q_text f mem (S p) (q + 3) e
      else let! mem := write mem p c in q_text f mem (S p) (S q) e
    else Ok (mem, p)
  end.
(* 335-356: the text of a b word *)
Fixpoint b_text (fuel : nat) (mem : bytes) (p q e : nat) (reg : Z) (nc : nat) (eq : Z) : res (bytes * nat) :=
  match fuel with
  | O => Err E_fuel
  | S f =>
    if (q <? e)%nat then
      let! c := read mem q in
      match nth_error base64_table (N.to_nat c), nth_error equal_table (N.to_nat c) with
      | Some dc, Some n =>
        let eq := (eq + n)%Z in
        if (0 <=? dc)%Z then
          let reg := (reg * 64 + dc)%Z in
          let nc := S nc in
          if (nc =? 4)%nat then
            let! (mem, p) := let! mem := write mem p (Z.to_N (reg / 65536 mod 256)) in Ok (mem, S p) in
            let! (mem, p) := if (eq <? 2)%Z then let! mem := write mem p (Z.to_N (reg / 256 mod 256)) in Ok (mem, S p) else Ok (mem, p) in
            let! (mem, p) := if (eq <? 1)%Z then let! mem := write mem p (Z.to_N (reg mod 256)) in Ok (mem, S p) else Ok (mem, p) in
            if (eq =? 0)%Z then b_text f mem p (S q) e 0 0 eq else Ok (mem, p)
          else b_text f mem p (S q) e reg nc eq
        else b_text f mem p (S q) e reg nc eq
      | _, _ => Err E_oob
      end
    else Ok (mem, p)
  end.
(* 300-360: the loop; what p and q are after it *)
Fixpoint words_loop (fuel : nat) (mem : bytes) (p q s : nat) : res (bytes * nat * nat) :=
  match fuel with
  | O => Err E_fuel
  | S f =>
    let! k := strstr 61 63 (skipn s mem) in
    match k with
    | None => Ok (mem, p, q)
    | Some k =>
      let s := (s + k)%nat in
      let! (mem, p, q) := if (p =? q)%nat then Ok (mem, s, s) else if (q <=? s)%nat then copy (s - q) mem p q else Err E_oob in
      let s := (s + 2)%nat in
      let! k := strchr 63 (skipn s mem) in
      match k with
      | None => Ok (mem, p, q)
      | Some k =>
        let a := (s + k + 1)%nat in
        let! k := strchr 63 (skipn a mem) in
        match k with
        | None => Ok (mem, p, q)
        | Some k =>
          let b := (a + k + 1)%nat in
          let! k := strstr 63 61 (skipn b mem) in
          match k with
          | None => Ok (mem, p, q)
          | Some k =>
            let e := (b + k)%nat in
            if negb (b - a =? 2)%nat then words_loop f mem p q (e + 2) else
            let! c := read mem a in
            if (c =? 113) || (c =? 81) then
              let! (mem, p) := q_text (S (e - b)) mem p b e in
              words_loop f mem p (e + 2) (e + 2)
            else if (c =? 98) || (c =? 66) then
              let! (mem, p) := b_text (S (e - b)) mem p b e 0 0 0 in
              words_loop f mem p (e + 2) (e + 2)
            else words_loop f mem p q (e + 2)
          end
        end
      end
    end
  end.
(* 362-364: copy up to the NUL *)
Fixpoint copy_rest (fuel : nat) (mem : bytes) (p q : nat) : res bytes :=
  match fuel with
  | O => Err E_fuel
  | S f =>
    let! c := read mem q in
    if c =? 0 then write mem p 0 else let! mem := write mem p c in copy_rest f mem (S p) (S q)
  end.
(* 296-365 decode_header_value *)
Definition decode_header_value (mem : bytes) : res bytes :=
  let! (mem, p, q) := words_loop (S (length mem)) mem 0 0 0 in
  if (p =? q)%nat then Ok mem else copy_rest (S (length mem)) mem p q.
