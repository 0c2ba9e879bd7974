(* Model of the indexing branch of main(): mairix.c 811-842, and db.c 381-493 with its integrity check.
   One session reads the database file if there is one, brings the index up to date, purges it if asked
   to, and writes it back if anything changed. *)
From Verif Require Import Base M_Encoding M_TokTable M_DbFile M_Thread M_Purge M_Update.
Local Open Scope N_scope.

(* The options, the messages and mailbox paths found in the folders, and what a session meets in memory
   that was never written: the index of int_list_reader_copy on an empty list (by offset in the file), the
   current_mtime of a loaded mailbox, and the int of the integrity check. *)
Record session := {
  s_world : world;
  s_fast : bool;                (* -F *)
  s_symlinks : bool;            (* mbox symlinks followed *)
  s_purge : bool;               (* -p *)
  s_checks : bool;              (* not -Q *)
  s_key : N;                    (* hash key of a new database *)
  s_found : list found;
  s_paths : list bytes;
  s_index : N -> N;
  s_current : N;
  s_highest : Z }.

Section Session.
Variable s : session.
Variable fuel : nat.            (* bounds the passes that close gaps in a purged table *)

Definition checked (db : database) : res unit := if s_checks s then check_database_integrity (s_highest s) db else Ok tt.
(* mairix.c 819-831; the file is None when classify_file says M_NONE.  Another kind of file ends the
   program before anything is read. *)
Definition get_database (file : option bytes) : res database :=
  match file with
  | Some F => let! db := load (w_hash (s_world s)) (s_index s) (s_current s) F in
              let! _ := checked db in Ok db
  | None => Ok (new_database (s_key s))
  end.
(* mairix.c 811-838.  The search for duplicates in the message list (part of index_run) comes before the
   database is read in the program; a difference shows only in which error is reported. *)
Definition update_index (file : option bytes) : res (bool * database) :=
  let! db := get_database file in
  let! (updates, db) := index_run (s_world s) (s_fast s) (s_symlinks s) (s_found s) (s_paths s) db in
  let! (purges, db) := (if s_purge s then cull_dead_messages fuel (s_checks s) (s_highest s) db else Ok (false, db)) in
  Ok (updates || purges, db).
(* mairix.c 839-842 and writer.c 584-586: the file afterwards *)
Definition index_session (file : option bytes) : res (option bytes) :=
  let! (changed, db) := update_index file in
  if changed then
    let! _ := checked db in
    let! F := write_database db (match file with Some F => F | None => [] end) in Ok (Some F)
  else Ok file.
End Session.
