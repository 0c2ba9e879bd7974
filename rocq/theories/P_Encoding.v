(* C01-C04: message-number lists.  Property theorems only. *)
From Coq Require Import Sorted.
From Verif Require Import Base M_Encoding S_Encoding L_Encoding2.
Local Open Scope N_scope.

(* C01: recording any ascending sequence whose first number and gaps are below 63*2^24 never aborts,
   and reading the list back - from memory, or from a file in which it sits anywhere and is followed by
   the 0xff end marker and anything else - yields exactly the distinct numbers, in order. *)
Theorem C01_list_roundtrip : forall xs,
  ascending_within 0 xs -> Forall (fun x => x < 2 ^ 31) xs ->
  exists m ys, add_indices init_matches xs = Some m /\ distinct_in_order xs ys /\
    read_matches m = RA_ok ys (length (msginfo m)) /\
    (forall pre tail, read_list_at (pre ++ msginfo m ++ 255 :: tail) (length pre)
        = RA_ok ys (length pre + length (msginfo m))).
Proof. exact record_read_roundtrip. Qed.
Print Assumptions C01_list_roundtrip.

Example C01_applies :
  ascending_within 0 [5; 5; 200; 16384; 16384; 900000000] /\
  Forall (fun x => x < 2 ^ 31) [5; 5; 200; 16384; 16384; 900000000].
Proof. split; [vm_compute; intuition congruence|repeat constructor]. Qed.

(* C02 (violated by the unchanged code): some number is accepted, yet the list reads back empty, in
   memory and in the file. *)
Theorem C02_accepted_is_readable_refuted :
  exists x m, add_indices init_matches [x] = Some m /\ read_matches m = RA_ok [] 0 /\
    (forall tail, read_list_at (msginfo m ++ 255 :: tail) 0 = RA_ok [] 0).
Proof. exact accepted_but_lost. Qed.
Print Assumptions C02_accepted_is_readable_refuted.

(* C02, exact extent: a first number below 63*2^24 reads back, one in [63*2^24, 2^30) is accepted and
   lost, one of 2^30 or more aborts the program. *)
Theorem C02_accepted_is_readable_partial : forall v,
  (v < 63 * 2 ^ 24 ->
     exists m, add_indices init_matches [v] = Some m /\ read_matches m = RA_ok [v] (length (msginfo m))) /\
  (63 * 2 ^ 24 <= v < 2 ^ 30 ->
     exists m, add_indices init_matches [v] = Some m /\ read_matches m = RA_ok [] 0) /\
  (2 ^ 30 <= v -> add_indices init_matches [v] = None).
Proof. exact record_one_cases. Qed.
Print Assumptions C02_accepted_is_readable_partial.

(* C03: for a new list or one loaded from any file, after any history, the next recording writes its
   bytes inside the allocated block. *)
Theorem C03_record_in_bounds : forall m0 xs m1 x m2,
  (m0 = init_matches \/ exists garbage data off, copy_list garbage data off = Some m0) ->
  add_indices m0 xs = Some m1 -> add_index m1 x = Some m2 ->
  N.of_nat (length (msginfo m1)) <= mmax m1 /\
  exists written, msginfo m2 = msginfo m1 ++ written /\
     mmax m2 = mmax (check_and_enlarge m1) /\
     N.of_nat (length (msginfo m1) + length written) <= mmax m2.
Proof. exact record_in_bounds. Qed.
Print Assumptions C03_record_in_bounds.

Example C03_applies :
  exists m0 m1 m2, copy_list 7 [9; 3; 129; 0; 255; 1] 1 = Some m0 /\
    add_indices m0 [300; 20000; 100000; 200000; 300000; 400000] = Some m1 /\ add_index m1 500000 = Some m2.
Proof. do 3 eexists. split; [vm_compute; reflexivity|]. split; vm_compute; reflexivity. Qed.

(* C04: on any bytes and from any offset, reading a list ends, never reads outside the file and gives
   at most one number per byte; reading a word's text never reads outside the file and returns the
   bytes up to the first NUL, or reports that there is none. *)
Theorem C04_reader_safe : forall data off,
  (exists vs q, read_list_at data off = RA_ok vs q /\
     (q = off \/ off < q <= length data)%nat /\ (length vs <= q - off)%nat) /\
  ((exists t, get_db_token data off = T_ok t /\
      exists r, skipn off data = t ++ 0 :: r /\ Forall (fun b => b <> 0) t)
   \/ (get_db_token data off = T_none /\ ~ In 0 (skipn off data))).
Proof. exact read_any_file_safe. Qed.
Print Assumptions C04_reader_safe.

Example C04_case : read_list_at [200; 1] 0 = RA_ok [] 0 /\ get_db_token [104; 105] 0 = T_none.
Proof. split; vm_compute; reflexivity. Qed.
