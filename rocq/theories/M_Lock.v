(* Model of the lock: dotlock.c 29-125 and its use in mairix.c (handlesig 437-450, main 704-712 and 854).
   Any number of processes, one step of one process at a time.  A process is known by a number that
   stands for its pid and host name: the temporary file names of different processes differ (dotlock.c
   63-68).  Simplified: uname, getpwuid, creating and statting the temporary file succeed. *)
From Verif Require Import Base.
Local Open Scope N_scope.

(* Where a process is. *)
Inductive pc :=
| Start      (* before lock_database, signals handled (mairix.c 708-710) *)
| Named      (* lock_file_name is set (dotlock.c 52-54) *)
| Ready      (* past the forced unlocking (56-59) *)
| Made       (* the temporary file has been written (68-74) *)
| Failed     (* link() reported failure (76) *)
| Counted    (* stat() has shown a link count other than 2 (82) *)
| Blocked    (* the lock file has been opened for reading (84-85) *)
| Locked     (* about to remove the temporary file and return (101-103) *)
| Inside     (* lock_database has returned *)
| Over.      (* exited or killed *)
(* The lock file, if any, is a link to some process's temporary file; whether each temporary file
   exists under its own name. *)
Record state := { at_pc : N -> pc; lock : option N; tmp : N -> bool }.
Definition move (s : state) (p : N) (c : pc) : state := {| at_pc := fun q => if q =? p then c else at_pc s q; lock := lock s; tmp := tmp s |}.
Definition set_lock (s : state) (l : option N) : state := {| at_pc := at_pc s; lock := l; tmp := tmp s |}.
Definition set_tmp (s : state) (p : N) (b : bool) : state := {| at_pc := at_pc s; lock := lock s; tmp := fun q => if q =? p then b else tmp s q |}.
Definition nlink (s : state) (p : N) : N := (if tmp s p then 1 else 0) + (match lock s with Some q => if q =? p then 1 else 0 | None => 0 end).

Inductive event :=
| E_name (p : N)
| E_force (p : N) (forced : bool)   (* --unlock given? *)
| E_make (p : N)
| E_link (p : N) (reported : bool)  (* is the result of a link() that works reported (it may be lost over NFS)? *)
| E_stat (p : N)
| E_open (p : N) (readable : bool)  (* may the lock file, if it is there, be read? *)
| E_refuse (p : N)
| E_clean (p : N)
| E_finish (p : N)
| E_signal (p : N)                  (* SIGHUP, SIGINT, SIGQUIT *)
| E_kill (p : N).                   (* any other end: SIGKILL, crash, exit(1) elsewhere *)

(* One step; None if it is not the process's next step. *)
Definition step (s : state) (e : event) : option state :=
  match e with
  | E_name p => match at_pc s p with Start => Some (move s p Named) | _ => None end
  | E_force p forced => match at_pc s p with
      | Named => Some (move (if forced then set_lock s None else s) p Ready) | _ => None end
  | E_make p => match at_pc s p with Ready => Some (move (set_tmp s p true) p Made) | _ => None end
  (* dotlock.c 76 *)
  | E_link p reported => match at_pc s p with
      | Made => match lock s with
                | None => Some (move (set_lock s (Some p)) p (if reported then Locked else Failed))
                | Some _ => Some (move s p Failed)
                end
      | _ => None end
  (* 78-83, 96 *)
  | E_stat p => match at_pc s p with
      | Failed => Some (move s p (if nlink s p =? 2 then Locked else Counted)) | _ => None end
  (* 84-86: if it cannot be opened the process goes on *)
  | E_open p readable => match at_pc s p with
      | Counted => Some (move s p (match lock s with Some _ => if readable then Blocked else Locked | None => Locked end))
      | _ => None end
  (* 87-92 *)
  | E_refuse p => match at_pc s p with Blocked => Some (move (set_tmp s p false) p Over) | _ => None end
  (* 101-103 *)
  | E_clean p => match at_pc s p with Locked => Some (move (set_tmp s p false) p Inside) | _ => None end
  (* 107-111 unlock_database, from mairix.c 854 or unlock_and_exit: the lock file is removed, whosever it is *)
  | E_finish p => match at_pc s p with Inside => Some (move (set_lock s None) p Over) | _ => None end
  (* mairix.c 437-450 handlesig calls unlock_and_exit; before lock_file_name is set nothing is removed *)
  | E_signal p => match at_pc s p with
      | Over => None | Start => Some (move s p Over) | _ => Some (move (set_lock s None) p Over) end
  | E_kill p => match at_pc s p with Over => None | _ => Some (move s p Over) end
  end.
Fixpoint run (s : state) (tr : list event) : option state :=
  match tr with [] => Some s | e :: tr' => match step s e with Some s' => run s' tr' | None => None end end.
(* All processes about to start, no lock file. *)
Definition init : state := {| at_pc := fun _ => Start; lock := None; tmp := fun _ => false |}.
