(* Purging dead messages and mailboxes: db.c 1251-1317, mbox.c 1038-1082. *)
From Verif Require Import Base M_Encoding M_TokTable M_DbFile M_Thread.
Local Open Scope N_scope.

Definition has_path (mb : mbox) : bool := match mb_path mb with Some _ => true | None => false end.
Definition is_live (m : msg) : bool := match src m with S_dead => false | _ => true end.
Definition with_src (m : msg) (s : msrc) : msg :=
  {| src := s; date := date m; tid := tid m; seen := seen m; replied := replied m; flagged := flagged m |}.
(* mbox.c 1066-1074 *)
Fixpoint renumber_mboxen (old_to_new : list (option N)) (ms : list msg) : res (list msg) :=
  match ms with
  | [] => Ok []
  | m :: ms' =>
    let! m' := match src m with
               | S_mbox fi mi => match nth_error old_to_new (N.to_nat fi) with
                                 | None => Err E_oob
                                 | Some None => Err E_assert
                                 | Some (Some j) => Ok (with_src m (S_mbox j mi))
                                 end
               | _ => Ok m
               end in
    let! r := renumber_mboxen old_to_new ms' in Ok (m' :: r)
  end.
Definition with_boxes (db : database) (ms : list msg) (bs : list mbox) : database :=
  {| msgs := ms; mboxen := bs; hash_key := hash_key db; d_to := d_to db; d_cc := d_cc db; d_from := d_from db;
     d_subject := d_subject db; d_body := d_body db; d_att := d_att db; d_ids := d_ids db |}.
(* mbox.c 1038-1082 cull_dead_mboxen.  old_to_new is filled like the array of message numbers. *)
Definition cull_dead_mboxen (db : database) : res database :=
  if forallb has_path (mboxen db) then Ok db else
  let! ms := renumber_mboxen (new_index_array (map has_path (mboxen db)) 0) (msgs db) in
  Ok (with_boxes db ms (filter has_path (mboxen db))).
(* db.c 1251-1317 cull_dead_messages.  idx is the uninitialised int of the integrity check, fuel bounds
   the repacking of the tables.  The result says whether anything was culled. *)
Definition cull_dead_messages (fuel : nat) (checks : bool) (idx : Z) (db : database) : res (bool * database) :=
  let! _ := (if checks then check_database_integrity idx db else Ok tt) in
  let new_idx := new_index_array (map is_live (msgs db)) 0 in
  let recode := recode_table fuel (recode1 new_idx) dead1 in
  let! t1 := recode (d_to db) in
  let! t2 := recode (d_cc db) in
  let! t3 := recode (d_from db) in
  let! t4 := recode (d_subject db) in
  let! t5 := recode (d_body db) in
  let! t6 := recode (d_att db) in
  let! t7 := recode_table fuel (recode2 new_idx) dead2 (d_ids db) in
  let db1 := {| msgs := filter is_live (msgs db); mboxen := mboxen db; hash_key := hash_key db; d_to := t1; d_cc := t2; d_from := t3;
                d_subject := t4; d_body := t5; d_att := t6; d_ids := t7 |} in
  let! db2 := cull_dead_mboxen db1 in
  Ok (negb (forallb is_live (msgs db)), db2).
