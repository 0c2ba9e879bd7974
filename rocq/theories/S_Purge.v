(* Purging: what the index holds afterwards. *)
From Verif Require Import Base M_Encoding M_TokTable S_TokTable M_DbFile S_DbFile S_Search.
Local Open Scope N_scope.

Definition liveness (db : database) : list bool := map (fun m => match src m with S_dead => false | _ => true end) (msgs db).
(* m in db and m' in db' describe the same message: the mailbox may have another number, but is the same. *)
Definition same_message (db db' : database) (m m' : msg) : Prop :=
  date m' = date m /\ tid m' = tid m /\ seen m' = seen m /\ replied m' = replied m /\ flagged m' = flagged m /\
  match src m with
  | S_mbox fi mi => exists fi' mb, src m' = S_mbox fi' mi /\ nth_error (mboxen db) (N.to_nat fi) = Some mb /\ nth_error (mboxen db') (N.to_nat fi') = Some mb
  | s => src m' = s
  end.
Record purged (db db' : database) : Prop := {
  pg_key : hash_key db' = hash_key db;
  (* the live messages, numbered consecutively in their old order, and no others *)
  pg_count : n_msgs db' = N.of_nat (length (filter (fun b => b) (liveness db)));
  pg_msgs : forall i m, message db i = Some m -> src m <> S_dead ->
    exists m', message db' (new_number (liveness db) i) = Some m' /\ same_message db db' m m';
  pg_all : forall k m', message db' k = Some m' -> exists i m, message db i = Some m /\ src m <> S_dead /\ k = new_number (liveness db) i;
  (* the mailboxes that have a path *)
  pg_boxes : mboxen db' = filter (fun mb => match mb_path mb with Some _ => true | None => false end) (mboxen db);
  (* every word lists its live messages under their new numbers; words without any are gone *)
  pg_words : forall p w ys, (exists m', In (w, m') (entries (table db' p)) /\ lists m' ys) <->
    ys <> [] /\ exists m xs, In (w, m) (entries (table db p)) /\ lists m xs /\ ys = renumber (liveness db) xs;
  pg_ids : forall w ys zs, (exists m0 m1, In (w, (m0, m1)) (entries (d_ids db')) /\ lists m0 ys /\ lists m1 zs) <->
    ~ (ys = [] /\ zs = []) /\ exists m0 m1 xs us, In (w, (m0, m1)) (entries (d_ids db)) /\ lists m0 xs /\ lists m1 us /\
      ys = renumber (liveness db) xs /\ zs = renumber (liveness db) us }.
(* Every message in a mailbox has a mailbox with a path; update_database marks the others dead. *)
Definition mailed (db : database) : Prop :=
  forall m fi mi mb, In m (msgs db) -> src m = S_mbox fi mi -> nth_error (mboxen db) (N.to_nat fi) = Some mb -> mb_path mb <> None.
