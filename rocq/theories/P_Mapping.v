(* C112, C113: files read through the memory map, compressed ones by way of a cache. *)
From Verif Require Import Base M_Mapping S_Mapping L_Mapping L_Mapping2 L_Mapping3.
Local Open Scope N_scope.

(* Files used one after the other, in any order and any number of times, show what they say, and at most one mapping is left, unless a compressed file is used
   again after only files that are not compressed.  Wherever mmap() puts the mappings. *)
Theorem C112_files_partial : forall use_gz use_bz use_xz files reads room place names texts,
  (forall m, ~ In (place m) (map fst m)) ->
  Forall2 (says (get_compression_type use_gz use_bz use_xz) files reads) names texts ->
  Forall (fun n => room n = true) names ->
  ~ returns (is_compressed use_gz use_bz use_xz) names ->
  exists M, use_files use_gz use_bz use_xz files reads room place start names = Ok (M, map Some texts) /\ (length (m_space M) <= 1)%nat.
Proof. exact (fun g b x f r rm pl ns ts H S RM NR => all_read g b x f r rm pl H ns ts NR RM S). Qed.
Print Assumptions C112_files_partial.
Example ex_C112_files : (forall m, ~ In (ex_place m) (map fst m)) /\ Forall2 (says (get_compression_type true true true) ex_files ex_reads) ex_names ex_texts /\
  Forall (fun n => (fun _ => true) n = true) ex_names /\ ~ returns (is_compressed true true true) ex_names.
Proof. exact (conj ex_fresh (conj ex_says_all (conj (proj2 (Forall_forall _ _) (fun _ _ => eq_refl)) ex_no_return))). Qed.

(* Without that condition it is false.  After any compressed file, any other one that is not, and the compressed file again, using the compressed file once more reads
   memory that is no longer mapped. *)
Theorem C112_files_refuted : forall use_gz use_bz use_xz files reads room place z p tz tp,
  (forall m, ~ In (place m) (map fst m)) ->
  is_compressed use_gz use_bz use_xz z = true -> is_compressed use_gz use_bz use_xz p = false -> room z = true ->
  says (get_compression_type use_gz use_bz use_xz) files reads z tz -> says (get_compression_type use_gz use_bz use_xz) files reads p tp ->
  use_files use_gz use_bz use_xz files reads room place start [z; p; z; z] = Err E_oob.
Proof. exact (fun g b x f r rm pl z p tz tp H => crash g b x f r rm pl H z p tz tp). Qed.
Print Assumptions C112_files_refuted.
Example ex_C112_refuted : is_compressed true true true (bs "old.GZ") = true /\ is_compressed true true true (bs "inbox") = false /\
  says (get_compression_type true true true) ex_files ex_reads (bs "old.GZ") (bs "From you") /\ says (get_compression_type true true true) ex_files ex_reads (bs "inbox") (bs "From me").
Proof. exact (conj eq_refl (conj eq_refl (conj ex_says_old ex_says_inbox))). Qed.

(* A damaged compressed file should be reported and left out.  Instead, when a read fails, memory outside of the buffer is read. *)
Theorem C113_damaged_refuted : forall use_gz use_bz use_xz files reads room place name raw chunks rest,
  files name = Some (Regular raw) -> mappable raw -> is_compressed use_gz use_bz use_xz name = true -> room name = true ->
  Forall (fun c => N.of_nat (length c) = SIZE_STEP) chunks ->
  reads (get_compression_type use_gz use_bz use_xz name) name = Some (map Some chunks ++ None :: rest) ->
  use_file use_gz use_bz use_xz files reads room place start name = Err E_oob.
Proof. exact damaged_crash. Qed.
Print Assumptions C113_damaged_refuted.
Example ex_C113 : ex_files (bs "bad.bz2") = Some (Regular [1]) /\ is_compressed true true true (bs "bad.bz2") = true /\
  ex_reads (get_compression_type true true true (bs "bad.bz2")) (bs "bad.bz2") = Some (map Some [] ++ [None]).
Proof. exact (conj eq_refl (conj eq_refl eq_refl)). Qed.

(* Which files are taken to be compressed: those with one of three endings, in capitals or not, and something before it. *)
Theorem C112_kind : forall use_gz use_bz use_xz name,
  (get_compression_type use_gz use_bz use_xz name = COMPRESSION_GZIP <-> use_gz = true /\ ends_in (bs ".gz") name) /\
  (get_compression_type use_gz use_bz use_xz name = COMPRESSION_BZIP <-> use_bz = true /\ ends_in (bs ".bz2") name) /\
  (get_compression_type use_gz use_bz use_xz name = COMPRESSION_XZ <-> use_xz = true /\ ends_in (bs ".xz") name).
Proof. exact kind_main. Qed.
Print Assumptions C112_kind.
Example ex_C112_kind : get_compression_type true true true (bs "old.GZ") = COMPRESSION_GZIP /\ get_compression_type true true true (bs "a.bZ2") = COMPRESSION_BZIP /\
  get_compression_type true true true (bs ".xz") = COMPRESSION_NONE /\ get_compression_type false true true (bs "old.gz") = COMPRESSION_NONE.
Proof. exact (conj eq_refl (conj eq_refl (conj eq_refl eq_refl))). Qed.
