(* Model of the delta-coded message-number lists: tok.c 195-243 (writing), reader.c 40-106 (reading).
   Message numbers are C [int]s that the callers keep non-negative, hence [N] here. *)
From Verif Require Import Base.
Local Open Scope N_scope.

(* tok.c 195-214 insert_value: the bytes stored for [val].  None = the assertion
   [a <= 63] (line 207) fails and the program aborts.  [assert(val >= 0)] (line 197) holds by type. *)
Definition insert_value (val : N) : option bytes :=
  if val <=? 127 then Some [val]
  else if val <=? 16383 then Some [N.lor (N.shiftr val 8) 128; N.land val 255]
  else
    let a := N.shiftr val 24 in
    if a <=? 63 then
      Some [N.lor a 192; N.land (N.shiftr val 16) 255; N.land (N.shiftr val 8) 255; N.land val 255]
    else None.

(* mairix.h 101-106 struct matches: [msginfo] holds the [n] bytes in use, [mmax] the bytes
   allocated, [highest] the last number recorded. *)
Record matches := { msginfo : bytes; mmax : N; highest : N }.
Definition mn (m : matches) : N := N.of_nat (length (msginfo m)).

(* tok.c 29-34 init_matches *)
Definition init_matches : matches := {| msginfo := []; mmax := 0; highest := 0 |}.

(* tok.c 216-226 check_and_enlarge_encoding *)
Definition check_and_enlarge (m : matches) : matches :=
  if mmax m <=? mn m + 4 then
    {| msginfo := msginfo m;
       mmax := if mmax m =? 0 then 16 else mmax m + N.shiftr (mmax m) 1;
       highest := highest m |}
  else m.

(* tok.c 228-243 insert_index_on_encoding.  The bytes produced by insert_value are written at
   offset n; None = failed assertion (line 234 or 207). *)
Definition insert_index (m : matches) (idx : N) : option matches :=
  if mn m =? 0 then
    match insert_value idx with
    | Some b => Some {| msginfo := msginfo m ++ b; mmax := mmax m; highest := idx |}
    | None => None
    end
  else if idx <? highest m then None
  else if highest m <? idx then
    match insert_value (idx - highest m) with
    | Some b => Some {| msginfo := msginfo m ++ b; mmax := mmax m; highest := idx |}
    | None => None
    end
  else Some {| msginfo := msginfo m; mmax := mmax m; highest := idx |}.

(* The pair of calls made for every recorded number, e.g. tok.c 287-288. *)
Definition add_index (m : matches) (idx : N) : option matches :=
  insert_index (check_and_enlarge m) idx.

(* A whole history of recorded numbers. *)
Fixpoint add_indices (m : matches) (xs : list N) : option matches :=
  match xs with
  | [] => Some m
  | x :: xs' => match add_index m x with Some m' => add_indices m' xs' | None => None end
  end.

(* Result of one int_list_reader_read call. *)
Inductive read1 :=
| R_end                                   (* returned 0 *)
| R_val (acc : N) (pos : nat)             (* returned 1: new accumulator (unsigned int) and position *)
| R_oob (off : nat).                      (* read outside the array *)

(* reader.c 58-88 int_list_reader_read.  [data] is the whole array (mapped file or malloc'ed block),
   [pos] the current offset, [e] the offset of ilr->end.  The accumulator is a 32-bit unsigned int;
   the caller receives it converted to int. *)
Definition ilr_read (data : bytes) (pos e : nat) (acc : N) : read1 :=
  if (e <=? pos)%nat then R_end
  else match nth_error data pos with
  | None => R_oob pos
  | Some x0 =>
    if x0 =? 255 then R_end
    else if N.land x0 192 =? 192 then
      if (e <? pos + 4)%nat then R_end
      else match nth_error data (pos + 1), nth_error data (pos + 2), nth_error data (pos + 3) with
           | Some x1, Some x2, Some x3 =>
             let incr := N.shiftl (N.land x0 63) 24 + N.shiftl x1 16 + N.shiftl x2 8 + x3 in
             R_val (u32 (acc + incr)) (pos + 4)
           | _, _, _ => R_oob (pos + 3)
           end
    else if negb (N.land x0 128 =? 0) then
      if (e <? pos + 2)%nat then R_end
      else match nth_error data (pos + 1) with
           | Some x1 => R_val (u32 (acc + (N.shiftl (N.land x0 127) 8 + x1))) (pos + 2)
           | None => R_oob (pos + 1)
           end
    else R_val (u32 (acc + x0)) (pos + 1)
  end.

(* The loop [while (int_list_reader_read(&ilr,&idx)) ...] used by every consumer.  Gives the values
   read and the final position. *)
Inductive readall :=
| RA_ok (vals : list N) (pos : nat)
| RA_oob (off : nat)
| RA_fuel.

Fixpoint ilr_loop (fuel : nat) (data : bytes) (pos e : nat) (acc : N) : readall :=
  match fuel with
  | O => RA_fuel
  | S f =>
    match ilr_read data pos e acc with
    | R_end => RA_ok [] pos
    | R_oob o => RA_oob o
    | R_val a p =>
      match ilr_loop f data p e a with
      | RA_ok vs q => RA_ok (a :: vs) q
      | r => r
      end
    end
  end.

(* reader.c 40-48 read_db_int_list_reader_init followed by the loop: the list stored at byte offset
   [off] of a database file [data]. *)
Definition read_list_at (data : bytes) (off : nat) : readall :=
  ilr_loop (S (length data)) data off (length data) 0.

(* reader.c 50-56 matches_int_list_reader_init followed by the loop. *)
Definition read_matches (m : matches) : readall :=
  ilr_loop (S (length (msginfo m))) (msginfo m) 0 (length (msginfo m)) 0.

(* reader.c 90-106 int_list_reader_copy: load the list stored at [off].  [garbage] stands for the
   uninitialised variable [index] (line 92) that becomes [highest] when the list is empty. *)
Definition copy_list (garbage : N) (data : bytes) (off : nat) : option matches :=
  match read_list_at data off with
  | RA_ok vs pos =>
    let size := (pos - off)%nat in
    let s := N.of_nat size in
    let sz := s + s / 2 in
    Some {| msginfo := firstn size (skipn off data);
            mmax := if sz <? 16 then 16 else sz;
            highest := last vs garbage |}
  | _ => None
  end.

(* reader.c 108-116 get_db_token: the loop over p below db_end, returning at the first NUL.
   T_ok t = a NUL was found before the end of the file and the token's bytes are [t];
   T_none = NULL returned; T_oob = a byte outside the file was read. *)
Inductive tokres :=
| T_ok (t : bytes)
| T_none
| T_oob (off : nat)
| T_fuel.
Fixpoint token_loop (fuel : nat) (data : bytes) (p : nat) : tokres :=
  match fuel with
  | O => T_fuel
  | S f =>
    if (p <? length data)%nat then
      match nth_error data p with
      | None => T_oob p
      | Some b =>
        if b =? 0 then T_ok []
        else match token_loop f data (p + 1) with T_ok t => T_ok (b :: t) | r => r end
      end
    else T_none
  end.
Definition get_db_token (data : bytes) (off : nat) : tokres := token_loop (S (length data)) data off.
