(* Model of rfc822.c, unencode_data: the content transfer encodings.
   A buffer is the list of bytes that can be read from its start; reading past its end is E_oob.
   isspc is isspace() in the current locale; strncasecmp folds ASCII letters. *)
From Verif Require Import Base.
Local Open Scope N_scope.

(* 73-82 *)
Inductive encoding := ENC_UNKNOWN | ENC_NONE | ENC_BINARY | ENC_7BIT | ENC_8BIT | ENC_QUOTED_PRINTABLE | ENC_BASE64 | ENC_UUENCODE.
(* 216-220 match_string: !strncasecmp(ref, candidate, strlen(ref)); ref in lower case *)
Fixpoint match_string (r c : bytes) : bool :=
  match r, c with
  | [], _ => true
  | x :: r', y :: c' => (tolower y =? x) && match_string r' c'
  | _ :: _, [] => false
  end.
(* 223-240 equal_table *)
Definition equal_table : list Z :=
 ([0; 0; 0; 0; 0; 0; 0; 0; 0; 0; 0; 0; 0; 0; 0; 0;
   0; 0; 0; 0; 0; 0; 0; 0; 0; 0; 0; 0; 0; 0; 0; 0;
   0; 0; 0; 0; 0; 0; 0; 0; 0; 0; 0; 0; 0; 0; 0; 0;
   0; 0; 0; 0; 0; 0; 0; 0; 0; 0; 0; 0; 0; 1; 0; 0;
   0; 0; 0; 0; 0; 0; 0; 0; 0; 0; 0; 0; 0; 0; 0; 0;
   0; 0; 0; 0; 0; 0; 0; 0; 0; 0; 0; 0; 0; 0; 0; 0;
   0; 0; 0; 0; 0; 0; 0; 0; 0; 0; 0; 0; 0; 0; 0; 0;
   0; 0; 0; 0; 0; 0; 0; 0; 0; 0; 0; 0; 0; 0; 0; 0;
   0; 0; 0; 0; 0; 0; 0; 0; 0; 0; 0; 0; 0; 0; 0; 0;
   0; 0; 0; 0; 0; 0; 0; 0; 0; 0; 0; 0; 0; 0; 0; 0;
   0; 0; 0; 0; 0; 0; 0; 0; 0; 0; 0; 0; 0; 0; 0; 0;
   0; 0; 0; 0; 0; 0; 0; 0; 0; 0; 0; 0; 0; 0; 0; 0;
   0; 0; 0; 0; 0; 0; 0; 0; 0; 0; 0; 0; 0; 0; 0; 0;
   0; 0; 0; 0; 0; 0; 0; 0; 0; 0; 0; 0; 0; 0; 0; 0;
   0; 0; 0; 0; 0; 0; 0; 0; 0; 0; 0; 0; 0; 0; 0; 0;
   0; 0; 0; 0; 0; 0; 0; 0; 0; 0; 0; 0; 0; 0; 0; 0])%Z.
(* 242-259 base64_table *)
Definition base64_table : list Z :=
 ([-1; -1; -1; -1; -1; -1; -1; -1; -1; -1; -1; -1; -1; -1; -1; -1;
   -1; -1; -1; -1; -1; -1; -1; -1; -1; -1; -1; -1; -1; -1; -1; -1;
   -1; -1; -1; -1; -1; -1; -1; -1; -1; -1; -1; 62; -1; -1; -1; 63;
   52; 53; 54; 55; 56; 57; 58; 59; 60; 61; -1; -1; -1; 0; -1; -1;
   -1; 0; 1; 2; 3; 4; 5; 6; 7; 8; 9; 10; 11; 12; 13; 14;
   15; 16; 17; 18; 19; 20; 21; 22; 23; 24; 25; -1; -1; -1; -1; -1;
   -1; 26; 27; 28; 29; 30; 31; 32; 33; 34; 35; 36; 37; 38; 39; 40;
   41; 42; 43; 44; 45; 46; 47; 48; 49; 50; 51; -1; -1; -1; -1; -1;
   -1; -1; -1; -1; -1; -1; -1; -1; -1; -1; -1; -1; -1; -1; -1; -1;
   -1; -1; -1; -1; -1; -1; -1; -1; -1; -1; -1; -1; -1; -1; -1; -1;
   -1; -1; -1; -1; -1; -1; -1; -1; -1; -1; -1; -1; -1; -1; -1; -1;
   -1; -1; -1; -1; -1; -1; -1; -1; -1; -1; -1; -1; -1; -1; -1; -1;
   -1; -1; -1; -1; -1; -1; -1; -1; -1; -1; -1; -1; -1; -1; -1; -1;
   -1; -1; -1; -1; -1; -1; -1; -1; -1; -1; -1; -1; -1; -1; -1; -1;
   -1; -1; -1; -1; -1; -1; -1; -1; -1; -1; -1; -1; -1; -1; -1; -1;
   -1; -1; -1; -1; -1; -1; -1; -1; -1; -1; -1; -1; -1; -1; -1; -1])%Z.
(* 261-294 hex_to_val *)
Definition hex_to_val (x : N) : N :=
  if (48 <=? x) && (x <=? 57) then x - 48
  else if (97 <=? x) && (x <=? 102) then 10 + (x - 97)
  else if (65 <=? x) && (x <=? 70) then 10 + (x - 65)
  else 0.
(* A write through p into the array result; what has been written is kept last byte first. *)
Definition put (cap : nat) (out : bytes) (c : N) : res bytes :=
  if (length out <? cap)%nat then Ok (c :: out) else Err E_oob.

(* 510-539: base64.  reg, nc and eq are as in the code; reg stays below 2^24. *)
Fixpoint base64 (cap : nat) (s : bytes) (reg : Z) (nc : nat) (eq : Z) (out : bytes) : res bytes :=
  match s with
  | [] => Ok out
  | c :: s' =>
    match nth_error base64_table (N.to_nat c), nth_error equal_table (N.to_nat c) with
    | Some dc, Some e =>
      let eq := (eq + e)%Z in
      if (0 <=? dc)%Z then
        let reg := (reg * 64 + dc)%Z in
        let nc := S nc in
        if (nc =? 4)%nat then
          let! out := put cap out (Z.to_N (reg / 65536 mod 256)) in
          let! out := if (eq <? 2)%Z then put cap out (Z.to_N (reg / 256 mod 256)) else Ok out in
          let! out := if (eq <? 1)%Z then put cap out (Z.to_N (reg mod 256)) else Ok out in
          if (eq =? 0)%Z then base64 cap s' 0 0 eq out else Ok out
        else base64 cap s' reg nc eq out
      else base64 cap s' reg nc eq out
    | _, _ => Err E_oob
    end
  end.

(* 439-452 looking_at_ws_then_newline: the number of characters before the newline, or NULL *)
Fixpoint ws_newline (isspc : N -> bool) (s : bytes) : res (option nat) :=
  match s with
  | [] => Err E_oob
  | c :: s' => if c =? 10 then Ok (Some O)
    else if isspc c then let! r := ws_newline isspc s' in Ok (option_map S r)
    else Ok None
  end.
(* 479-508: quoted-printable.  rest is the memory from q on, togo the distance from q to end_input. *)
Fixpoint qp (isspc : N -> bool) (fuel cap : nat) (rest : bytes) (togo : nat) (out : bytes) : res bytes :=
  match fuel with
  | O => Err E_fuel
  | S f =>
    if (togo =? 0)%nat then Ok out else
    match rest with
    | [] => Err E_oob
    | c :: rest1 =>
      if c =? 61 then
        let! r := ws_newline isspc rest1 in
        match r with
        | Some k => qp isspc f cap (skipn (S k) rest1) (togo - 1 - S k) out
        | None =>
          match rest1 with
          | x :: y :: rest2 =>
            let! out := put cap out ((hex_to_val x * 16 + hex_to_val y) mod 256) in
            qp isspc f cap rest2 (togo - 3) out
          | _ => Err E_oob
          end
        end
      else
        let! out := put cap out c in
        qp isspc f cap rest1 (togo - 1) out
    end
  end.

(* 553 DEC *)
Definition dec (c : N) : N := (c + 256 - 32) mod 64.
(* 557-568: the groups of a line of which len bytes are still due *)
Fixpoint uu_groups (cap : nat) (len : nat) (rest : bytes) (togo : nat) (out : bytes) : res (bytes * nat * bytes) :=
  match len with
  | O => Ok (rest, togo, out)
  | S O =>
    match rest with
    | a :: b :: _ =>
      let! out := put cap out ((N.lor (dec a * 4) (dec b / 16)) mod 256) in
      Ok (skipn 4 rest, (togo - 4)%nat, out)
    | _ => Err E_oob
    end
  | S (S O) =>
    match rest with
    | a :: b :: c :: _ =>
      let! out := put cap out ((N.lor (dec a * 4) (dec b / 16)) mod 256) in
      let! out := put cap out ((N.lor (dec b * 16) (dec c / 4)) mod 256) in
      Ok (skipn 4 rest, (togo - 4)%nat, out)
    | _ => Err E_oob
    end
  | S (S (S len')) =>
    match rest with
    | a :: b :: c :: d :: rest' =>
      let! out := put cap out ((N.lor (dec a * 4) (dec b / 16)) mod 256) in
      let! out := put cap out ((N.lor (dec b * 16) (dec c / 4)) mod 256) in
      let! out := put cap out ((N.lor (dec c * 64) (dec d)) mod 256) in
      uu_groups cap len' rest' (togo - 4) out
    | _ => Err E_oob
    end
  end.
(* 548-549, 569-570: while (q < end_input && c != '\n') q++ *)
Fixpoint to_newline (rest : bytes) (togo : nat) : res (bytes * nat) :=
  match togo with
  | O => Ok (rest, O)
  | S togo' =>
    match rest with
    | [] => Err E_oob
    | c :: rest' => if c =? 10 then Ok (rest, togo) else to_newline rest' togo'
    end
  end.
(* 551-571: the lines *)
Fixpoint uu_lines (fuel cap : nat) (rest : bytes) (togo : nat) (out : bytes) : res bytes :=
  match fuel with
  | O => Err E_fuel
  | S f =>
    if (togo =? 0)%nat then Ok out else
    match rest with
    | [] => Err E_oob
    | c :: rest' =>
      let len := dec c in
      if len =? 0 then Ok out else
      let! (rest, togo, out) := uu_groups cap (N.to_nat len) rest' (togo - 1) out in
      let! (rest, togo) := to_newline rest togo in
      uu_lines f cap rest togo out
    end
  end.
(* 545-547: the search for "begin "; a buffer shorter than 6 bytes ends it at once *)
Fixpoint uu_begin (rest : bytes) (togo : nat) : res (bytes * nat) :=
  if (6 <? togo)%nat then
    if bytes_eqb (firstn 6 rest) (bs "begin ") then Ok (rest, togo)
    else match rest, togo with
    | _ :: rest', S togo' => uu_begin rest' togo'
    | _, _ => Err E_oob
    end
  else Ok (rest, togo).
(* 541-574: x-uuencode *)
Definition uudecode (cap : nat) (mem : bytes) (len : nat) : res bytes :=
  let! (rest, togo) := uu_begin mem len in
  let! (rest, togo) := to_newline (skipn 6 rest) (togo - 6) in
  uu_lines (S togo) cap rest togo [].

(* 389-422 decode_encoding_type *)
Fixpoint skip_space (isspc : N -> bool) (s : bytes) : bytes :=
  match s with [] => [] | c :: s' => if isspc c then skip_space isspc s' else s end.
Definition decode_encoding_type (isspc : N -> bool) (e : option bytes) : encoding :=
  match e with
  | None => ENC_NONE
  | Some e =>
    let p := skip_space isspc e in
    if match_string (bs "7bit") p || match_string (bs "7-bit") p || match_string (bs "7 bit") p then ENC_7BIT
    else if match_string (bs "8bit") p || match_string (bs "8-bit") p || match_string (bs "8 bit") p then ENC_8BIT
    else if match_string (bs "quoted-printable") p then ENC_QUOTED_PRINTABLE
    else if match_string (bs "base64") p then ENC_BASE64
    else if match_string (bs "binary") p then ENC_BINARY
    else if match_string (bs "x-uuencode") p then ENC_UUENCODE
    else ENC_UNKNOWN
  end.
(* 454-588 unencode_data.  mem is what can be read from input on; the result is the decoded data.
   The array has input_len + 1 bytes, the last of the decoded data being followed by a NUL. *)
Definition unencode_data (isspc : N -> bool) (mem : bytes) (input_len : nat) (enc : option bytes) : res bytes :=
  let cap := S input_len in
  let! out :=
    match decode_encoding_type isspc enc with
    | ENC_7BIT | ENC_8BIT | ENC_BINARY | ENC_NONE =>
      if (input_len <=? length mem)%nat then Ok (rev (firstn input_len mem)) else Err E_oob
    | ENC_QUOTED_PRINTABLE => qp isspc (S input_len) cap mem input_len []
    | ENC_BASE64 => if (input_len <=? length mem)%nat then base64 cap (firstn input_len mem) 0 0 0 [] else Err E_oob
    | ENC_UUENCODE => uudecode cap mem input_len
    | ENC_UNKNOWN => Ok []
    end in
  let! _ := put cap out 0 in
  Ok (rev out).
