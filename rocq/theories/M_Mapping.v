(* Model of rfc822.c 1086-1452 and xzfile.c 41-101: reading files through mmap(), compressed ones by
   way of a temporary file, with a cache of one decompressed file. *)
From Verif Require Import Base.
Local Open Scope N_scope.

(* What the address space holds: the address of each mapping and the bytes seen there.  A mapping is
   one unit: pages within it are not told apart. *)
Definition space := list (N * bytes).
Fixpoint at_address (m : space) (a : N) : option bytes :=
  match m with [] => None | (b, t) :: m' => if a =? b then Some t else at_address m' a end.
(* munmap(): no error if nothing is mapped there *)
Definition munmap (m : space) (a : N) : space := filter (fun x => negb (fst x =? a)) m.

(* rfc822.c 1086-1088 *)
Inductive alloc := ALLOC_UNSET | ALLOC_NONE | ALLOC_MMAP | ALLOC_MALLOC.
(* rfc822.c 1096-1099 *)
Inductive compression := COMPRESSION_NONE | COMPRESSION_GZIP | COMPRESSION_BZIP | COMPRESSION_XZ.
(* rfc822.c 1094 *)
Definition SIZE_STEP : N := 8 * 1024 * 1024.

(* Global data of rfc822.c: data_alloc_type (1090), the only slot of ro_mapping_cache (1240-1246),
   whose map is NULL at first, and the mappings that exist. *)
Record memory := Memory { m_type : alloc; m_slot : option (bytes * N * N); m_space : space }.
Definition start : memory := Memory ALLOC_UNSET None [].

(* What stat() tells of a name. *)
Inductive node := Regular (text : bytes) | Other (size : N).

(* strncasecmp(filename + ptr, ext, len) == 0 at the end of the name; ext is in lower case *)
Definition has_ending (name ext : bytes) : bool :=
  (N.of_nat (length ext) <? N.of_nat (length name)) && bytes_eqb (map tolower (skipn (length name - length ext) name)) ext.

Section Mapping.
(* Which kinds are compiled in; the files; the results of successive reads by gzread, BZ2_bzread or
   lzma_code from the file of that name (None: the file cannot be opened; a read is None if it fails;
   after the last one reads give nothing); whether tmpfile() succeeds, as then do the writes to it and
   the mmap() of it; where mmap() puts a new mapping. *)
Context (use_gz use_bz use_xz : bool) (files : bytes -> option node) (reads : compression -> bytes -> option (list (option bytes)))
  (room : bytes -> bool) (place : space -> N).

(* rfc822.c 1101-1127 get_compression_type *)
Definition get_compression_type (name : bytes) : compression :=
  if use_gz && has_ending name (bs ".gz") then COMPRESSION_GZIP
  else if use_bz && has_ending name (bs ".bz2") then COMPRESSION_BZIP
  else if use_xz && has_ending name (bs ".xz") then COMPRESSION_XZ
  else COMPRESSION_NONE.
(* rfc822.c 1130-1133 is_compressed *)
Definition is_compressed (name : bytes) : bool := match get_compression_type name with COMPRESSION_NONE => false | _ => true end.

(* rfc822.c 1405-1434, the end of create_ro_mapping: a file that is not to be decompressed.  open() and
   mmap() succeed.  The result is the address and the length, or NULL. *)
Definition map_plain (M : memory) (name : bytes) : res (memory * option (N * N)) :=
  match files name with
  | None => Ok (M, None)
  | Some (Other _) => Ok (M, None)
  | Some (Regular []) => Ok (M, None)
  | Some (Regular t) =>
      if 2 ^ 31 <=? N.of_nat (length t) then Err E_ub
      else let a := place (m_space M) in Ok (Memory ALLOC_MMAP (m_slot M) ((a, t) :: m_space M), Some (a, N.of_nat (length t)))
  end.
(* rfc822.c 1436-1452 free_ro_mapping; free() of what has not been allocated is undefined *)
Definition free_ro_mapping (M : memory) (a : N) : res memory :=
  match m_type M with
  | ALLOC_MALLOC => Err E_ub
  | ALLOC_MMAP => Ok (Memory (m_type M) (m_slot M) (munmap (m_space M) a))
  | _ => Ok M
  end.

(* rfc822.c 1252-1272 find_ro_cache *)
Definition find_ro_cache (M : memory) (name : bytes) : option (N * N) :=
  match m_slot M with Some (n, a, l) => if bytes_eqb name n then Some (a, l) else None | None => None end.
(* rfc822.c 1278-1304 add_ro_cache, called when the name is not there; mmap() of the temporary file
   succeeds.  The text is complete when the mapping is used, as it is shared and the file is closed
   before that. *)
Definition add_ro_cache (M : memory) (name text : bytes) : memory * (N * N) :=
  let s := match m_slot M with Some (_, a, _) => munmap (m_space M) a | None => m_space M end in
  let a := place s in
  let l := N.of_nat (length text) in
  (Memory (m_type M) (Some (name, a, l)) ((a, text) :: s), (a, l)).

(* rfc822.c 1361-1370: the reads after the first.  A failed read is the number -1, of an unsigned type,
   and so many bytes are then written from a buffer of SIZE_STEP. *)
Fixpoint read_rest (rs : list (option bytes)) : res bytes :=
  match rs with
  | [] => Ok []
  | None :: _ => Err E_oob
  | Some [] :: _ => Ok []
  | Some c :: rs' => let! t := read_rest rs' in Ok (c ++ t)
  end.
(* rfc822.c 1353-1371; None: writing no bytes counts as a failure *)
Definition read_all (rs : list (option bytes)) : res (option bytes) :=
  match rs with
  | [] | Some [] :: _ => Ok None
  | None :: _ => Err E_oob
  | Some c :: rs' =>
      if N.of_nat (length c) <? SIZE_STEP then Ok (Some c)
      else let! t := read_rest rs' in Ok (Some (c ++ t))
  end.

(* rfc822.c 1155-1185 xx_zopen, xzfile.c 41-70: the compressed file itself is mapped for xz.  The result
   is what to give back at the end (xzfile.c 89-101). *)
Definition zopen (M : memory) (name : bytes) : res (memory * option (list (option bytes) * option N)) :=
  match get_compression_type name with
  | COMPRESSION_NONE => Ok (M, None)
  | COMPRESSION_XZ =>
      let! (M', d) := map_plain M name in
      match d, reads COMPRESSION_XZ name with
      | Some (a, _), Some rs => Ok (M', Some (rs, Some a))
      | Some (a, _), None => Ok (M', Some ([], Some a))
      | None, _ => Ok (M', None)
      end
  | k => match reads k name with Some rs => Ok (M, Some (rs, None)) | None => Ok (M, None) end
  end.

(* rfc822.c 1309-1434 create_ro_mapping with MAP_DECOMPRESS_IF_APPLICABLE *)
Definition create_ro_mapping (M : memory) (name : bytes) : res (memory * option (N * N)) :=
  match files name with
  | None => Ok (M, None)
  | Some _ =>
      if is_compressed name then
        match find_ro_cache M name with
        | Some d => Ok (M, Some d)
        | None =>
            if negb (room name) then Ok (M, None)
            else
              let! (M1, z) := zopen M name in
              match z with
              | None => Ok (M1, None)
              | Some (rs, inner) =>
                  let! o := read_all rs in
                  match o with
                  | None => Ok (M1, None)
                  | Some t =>
                      if 2 ^ 31 <=? N.of_nat (length t) then Err E_ub
                      else
                        let! M2 := match inner with Some a => free_ro_mapping M1 a | None => Ok M1 end in
                        let (M3, d) := add_ro_cache (Memory ALLOC_NONE (m_slot M2) (m_space M2)) name t in
                        Ok (M3, Some d)
                  end
              end
        end
      else map_plain M name
  end.

(* The way in which all callers use a file (rfc822.c 1462-1485, mbox.c 877-880 and 943-1029, search.c 638-652,
   715-762, 1251-1260 and 1297-1322): it is mapped, read and given back.  Reading where nothing is
   mapped is a segmentation fault. *)
Definition use_file (M : memory) (name : bytes) : res (memory * option bytes) :=
  let! (M1, d) := create_ro_mapping M name in
  match d with
  | None => Ok (M1, None)
  | Some (a, l) =>
      match at_address (m_space M1) a with
      | Some t => if l <=? N.of_nat (length t) then let! M2 := free_ro_mapping M1 a in Ok (M2, Some (firstn (N.to_nat l) t)) else Err E_oob
      | None => Err E_oob
      end
  end.
(* One file after the other. *)
Fixpoint use_files (M : memory) (names : list bytes) : res (memory * list (option bytes)) :=
  match names with
  | [] => Ok (M, [])
  | n :: ns => let! (M1, t) := use_file M n in let! (M2, ts) := use_files M1 ns in Ok (M2, t :: ts)
  end.
End Mapping.
