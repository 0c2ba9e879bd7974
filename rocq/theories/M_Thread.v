(* Grouping messages into threads: db.c 753-827. *)
From Verif Require Import Base M_Encoding M_TokTable M_DbFile.
Local Open Scope N_scope.

(* db.c 753-761 find_base.  The table of ints is a list of indices; fuel bounds the chain, a longer
   one being a cycle. *)
Fixpoint find_base_from (fuel : nat) (ix : list nat) (a : nat) : res nat :=
  match fuel with
  | O => Err E_fuel
  | S fuel' => match nth_error ix a with
               | None => Err E_oob
               | Some b => if (b =? a)%nat then Ok a else find_base_from fuel' ix b
               end
  end.
Definition find_base (ix : list nat) (a : nat) : res nat := find_base_from (S (length ix)) ix a.
(* db.c 793-802: the numbers after the first of one list *)
Fixpoint join_rest (ix : list nat) (new_base : nat) (cs : list N) : res (list nat) :=
  match cs with
  | [] => Ok ix
  | c :: cs' =>
    let! old_base := find_base ix (N.to_nat c) in
    if (old_base <? new_base)%nat then join_rest (set_nth ix new_base old_base) old_base cs'
    else if (new_base <? old_base)%nat then join_rest (set_nth ix old_base new_base) new_base cs'
    else join_rest ix new_base cs'
  end.
(* db.c 785-804: one list.  A number read as a negative int is, like one too large, outside ix.
   Simplified: the list is read to its end first. *)
Definition join_list (ix : list nat) (cs : list N) : res (list nat) :=
  match cs with [] => Ok ix | c :: cs' => let! b := find_base ix (N.to_nat c) in join_rest ix b cs' end.
(* db.c 782-806: all identifiers, in table order *)
Fixpoint join_tokens (ix : list nat) (ts : list (token (matches * matches))) : res (list nat) :=
  match ts with
  | [] => Ok ix
  | k :: ts' =>
    match read_matches (fst (pay k)) with
    | RA_ok vs _ => let! ix' := join_list ix vs in join_tokens ix' ts'
    | RA_oob _ => Err E_oob
    | RA_fuel => Err E_fuel
    end
  end.
(* db.c 809-814, for i in is *)
Fixpoint flatten (is : list nat) (ix : list nat) : res (list nat) :=
  match is with
  | [] => Ok ix
  | i :: is' =>
    let! b := fetch (nth_error ix i) in
    if (b =? i)%nat then flatten is' ix
    else let! c := fetch (nth_error ix b) in flatten is' (set_nth ix i c)
  end.
(* db.c 817-824, for i in is; tids holds the numbers given so far *)
Fixpoint number_threads (is : list nat) (ix : list nat) (next_tid : N) (tids : list N) : res (list N) :=
  match is with
  | [] => Ok tids
  | i :: is' =>
    let! b := fetch (nth_error ix i) in
    if (b =? i)%nat then number_threads is' ix (next_tid + 1) (tids ++ [next_tid])
    else let! t := fetch (nth_error tids b) in number_threads is' ix next_tid (tids ++ [t])
  end.
Definition with_tid (m : msg) (t : N) : msg :=
  {| src := src m; date := date m; tid := t; seen := seen m; replied := replied m; flagged := flagged m |}.
Fixpoint set_tids (ms : list msg) (ts : list N) : list msg :=
  match ms, ts with m :: ms', t :: ts' => with_tid m t :: set_tids ms' ts' | _, _ => ms end.
Definition with_msgs (db : database) (ms : list msg) : database :=
  {| msgs := ms; mboxen := mboxen db; hash_key := hash_key db; d_to := d_to db; d_cc := d_cc db; d_from := d_from db;
     d_subject := d_subject db; d_body := d_body db; d_att := d_att db; d_ids := d_ids db |}.
(* db.c 763-827 find_threading *)
Definition find_threading (db : database) : res database :=
  let np := length (msgs db) in
  let! ix := join_tokens (seq 0 np) (toks (slots (d_ids db))) in
  let! ix := flatten (seq 0 np) ix in
  let! tids := number_threads (seq 0 np) ix 0 [] in
  Ok (with_msgs db (set_tids (msgs db) tids)).
