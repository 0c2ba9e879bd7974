(* dumper.c: the option -d, which prints the index.  What printf makes of numbers is a parameter. *)
From Verif Require Import Base M_Encoding M_TokTable M_DbFile M_Search.
Local Open Scope N_scope.

(* printf with %d, %6d, %4d of an int and %08x of an unsigned int *)
Record printf := { p_d : Z -> bytes; p_6d : Z -> bytes; p_4d : Z -> bytes; p_08x : N -> bytes }.

Section Dump.
Variables (P : printf) (data : bytes).
(* printf "%d" of an unsigned int *)
Definition put (x : N) : bytes := p_d P (int_of_u32 x).
(* dumper.c 57-66: the numbers of a list, on_line of them on the line so far.
   Simplified: the list is read to its end before the first is printed. *)
Fixpoint put_list (on_line : nat) (vs : list N) : bytes :=
  match vs with
  | [] => [10]
  | v :: vs' => if (15 <? on_line)%nat then [10] ++ put v ++ bs " " ++ put_list 1 vs' else put v ++ bs " " ++ put_list (S on_line) vs'
  end.
(* dumper.c 48-67, words i, i + 1, ...; read_db_int_list_reader_init is reader.c 40-48 *)
Fixpoint dump_words (tok enc : N) (k : nat) (i : N) : res bytes :=
  match k with
  | O => Ok []
  | S k' =>
    let! off := ui data (tok + i) in
    let! head := match get_db_token data (N.to_nat off) with
                 | T_ok w => Ok (bs "Word " ++ put i ++ bs " : <" ++ w ++ bs ">" ++ [10])
                 | T_none => Ok (bs "Word " ++ put i ++ bs " is corrupt, lies beyond end of database" ++ [10])
                 | T_oob _ => Err E_oob
                 | T_fuel => Err E_fuel
                 end in
    let! e := ui data (enc + i) in
    let! vs := match read_list_at data (N.to_nat e) with RA_ok vs _ => Ok vs | RA_oob _ => Err E_oob | RA_fuel => Err E_fuel end in
    let! more := dump_words tok enc k' (i + 1) in
    Ok (head ++ bs "  " ++ put_list 0 vs ++ more)
  end.
(* dumper.c 40-68 dump_token_chain *)
Definition dump_token_chain (n tok enc : N) : res bytes :=
  let! ws := dump_words tok enc (N.to_nat n) 0 in Ok (put n ++ bs " entries" ++ [10] ++ ws).
(* dumper.c 70-74 dump_toktable *)
Definition dump_toktable (t : toktable_db) (title : bytes) : res bytes :=
  let! c := dump_token_chain (t_n t) (t_tok t) (t_enc t) in Ok (bs "Contents of <" ++ title ++ bs "> table" ++ [10] ++ c).
(* dumper.c 76-85 dump_toktable2 *)
Definition dump_toktable2 (t : toktable2_db) (title : bytes) : res bytes :=
  let! c0 := dump_token_chain (t2_n t) (t2_tok t) (t2_enc0 t) in
  let! c1 := dump_token_chain (t2_n t) (t2_tok t) (t2_enc1 t) in
  Ok (bs "Contents of <" ++ title ++ bs "> table" ++ [10] ++ bs "Chain 0" ++ [10] ++ c0 ++ bs "Chain 1" ++ [10] ++ c1).
(* dumper.c 97-125, message i *)
Definition dump_msg (r : read_db) (i : N) : res bytes :=
  let! ty := rd_msg_type data r i in
  let! what :=
    (if ty =? 0 then Ok (bs "DEAD")
     else if ty =? 1 then
       let! po := ui data (r_path r + i) in let! p := cstr data po in let! sz := ui data (r_size r + i) in let! ti := ui data (r_tid r + i) in
       Ok (bs "FILE " ++ p ++ bs ", size=" ++ put sz ++ bs ", tid=" ++ put ti)
     else if ty =? 3 then
       let! po := ui data (r_path r + i) in let! p := cstr data po in let! ti := ui data (r_tid r + i) in
       Ok (bs "IMAP " ++ p ++ bs ", tid=" ++ put ti)
     else if ty =? 2 then
       let! po := ui data (r_path r + i) in let! (mbix, msgix) := decode_mbox_indices data po in
       let! mt := ui data (r_mtime r + i) in let! sz := ui data (r_size r + i) in let! ti := ui data (r_tid r + i) in
       Ok (bs "MBOX " ++ put mbix ++ bs ", msg " ++ put msgix ++ bs ", offset=" ++ put mt ++ bs ", size=" ++ put sz ++ bs ", tid=" ++ put ti)
     else Ok []) in
  let! tf := type_and_flags data r i in
  let flag b s := if N.land tf b =? 0 then [] else s in
  Ok (p_6d P (int_of_u32 i) ++ bs ": " ++ what ++ flag 8 (bs " seen") ++ flag 16 (bs " replied") ++ flag 32 (bs " flagged") ++ [10]).
(* dumper.c 130-136, mailbox i *)
Definition dump_mbox (r : read_db) (i : N) : res bytes :=
  let! po := ui data (r_mbp r + i) in
  if po =? 0 then Ok (p_4d P (int_of_u32 i) ++ bs ": dead" ++ [10])
  else let! n := ui data (r_mbe r + i) in let! p := cstr data po in Ok (p_4d P (int_of_u32 i) ++ bs ": " ++ put n ++ bs " msgs in " ++ p ++ [10]).
(* a loop over an int below a number that the file gives *)
Definition each (f : N -> res bytes) (n : N) : res bytes := let! l := for_msgs f (Z.to_nat (int_of_u32 n)) 0 in Ok (concat l).
Definition dashes : bytes := bs "--------------------------------" ++ [10].
Fixpoint dump_tables (ts : list toktable_db) (titles : list bytes) : res bytes :=
  match ts, titles with
  | t :: ts', n :: titles' => let! a := dump_toktable t n in let! b := dump_tables ts' titles' in Ok (a ++ dashes ++ b)
  | _, _ => Ok []
  end.
(* dumper.c 87-158 dump_database, what is printed; the loop over mailboxes is entered if n_mboxen is positive *)
Definition dump_database (filename : bytes) : res bytes :=
  let! r := open_db data in
  let! ms := each (dump_msg r) (r_n r) in
  let! mbs := (if (0 <? int_of_u32 (r_nb r))%Z then
                 let! l := each (dump_mbox r) (r_nb r) in Ok ([10] ++ bs "MBOX INFORMATION" ++ [10] ++ put (r_nb r) ++ bs " mboxen" ++ [10] ++ l ++ [10])
               else Ok []) in
  let! ts := dump_tables (r_tabs r) [bs "To"; bs "Cc"; bs "From"; bs "Subject"; bs "Body"; bs "Attachment names"] in
  let! ids := dump_toktable2 (r_ids r) (bs "Message Ids") in
  Ok (bs "Dump of " ++ filename ++ [10] ++ put (r_n r) ++ bs " messages" ++ [10] ++ ms ++ [10] ++ mbs ++
      bs "Hash key " ++ p_08x P (r_key r) ++ [10] ++ [10] ++ dashes ++ ts ++ ids ++ dashes).
End Dump.
