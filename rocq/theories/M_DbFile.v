(* Model of the database file: writer.c (writing), reader.c 118-277 (opening),
   db.c 268-493 (loading for an incremental run), mbox.c 1085-1100 (packed mailbox indices).
   Machine words are 32-bit little endian (uidata[] accesses); pointers are 64-bit. *)
From Verif Require Import Base M_Encoding M_TokTable.
Local Open Scope N_scope.

(* ---- memory as a byte list ---- *)

(* One byte; None = outside the mapping. *)
Definition rd8 (data : bytes) (off : N) : option N :=
  if off <? N.of_nat (length data) then nth_error data (N.to_nat off) else None.
(* n bytes from off; None = outside the mapping. *)
Definition sub (data : bytes) (off n : N) : option bytes :=
  if off + n <=? N.of_nat (length data) then Some (firstn (N.to_nat n) (skipn (N.to_nat off) data))
  else None.
(* The 4 bytes of an unsigned int (value taken modulo 2^32, as the conversion to unsigned does). *)
Definition le32 (v : N) : bytes :=
  [v mod 256; v / 256 mod 256; v / 65536 mod 256; v / 16777216 mod 256].
Definition rd32 (data : bytes) (off : N) : option N :=
  match sub data off 4 with
  | Some [a; b; c; d] => Some (a + b * 256 + c * 65536 + d * 16777216)
  | _ => None
  end.
Definition fetch {A} (o : option A) : res A := match o with Some a => Ok a | None => Err E_oob end.
(* uidata[i] *)
Definition ui (data : bytes) (i : N) : res N := fetch (rd32 data (4 * i)).
Definition splice (data : bytes) (off : N) (b : bytes) : res bytes :=
  if off + N.of_nat (length b) <=? N.of_nat (length data) then
    Ok (firstn (N.to_nat off) data ++ b ++ skipn (N.to_nat off + length b) data)
  else Err E_oob.
(* strlen/strcpy from data+off: the bytes before the first NUL; running off the end is out of bounds. *)
Fixpoint until_nul (s : bytes) : option bytes :=
  match s with
  | [] => None
  | b :: s' => if b =? 0 then Some [] else match until_nul s' with Some t => Some (b :: t) | None => None end
  end.
Definition cstr (data : bytes) (off : N) : res bytes :=
  if off <? N.of_nat (length data) then fetch (until_nul (skipn (N.to_nat off) data)) else Err E_oob.

(* ---- the in-memory database (mairix.h 62-90, 200-268) ---- *)

(* db->type[i] with the part of the union that type selects. *)
Inductive msrc :=
| S_dead
| S_file (path : bytes) (mtime size : N)
| S_imap (path : bytes)
| S_mbox (file_index msg_index : N).
Record msg := { src : msrc; date : N; tid : N; seen : bool; replied : bool; flagged : bool }.

(* struct mbox.  [starts]/[lens] are the allocated arrays, None = never written; [checks] the array
   of 16-byte checksums.  mb_n is n_msgs. *)
Record mbox := { mb_path : option bytes; f_mtime : N; f_size : N; c_mtime : N; c_size : N;
                 mb_n : N; starts : list (option N); lens : list (option N); checks : list bytes }.

Record database := { msgs : list msg; mboxen : list mbox; hash_key : N;
  d_to : toktable matches; d_cc : toktable matches; d_from : toktable matches;
  d_subject : toktable matches; d_body : toktable matches; d_att : toktable matches;
  d_ids : toktable (matches * matches) }.
(* The six one-list tables in file order. *)
Definition tabs (db : database) : list (toktable matches) :=
  [d_to db; d_cc db; d_from db; d_subject db; d_body db; d_att db].
Definition n_msgs (db : database) : N := N.of_nat (length (msgs db)).
Definition n_mboxen (db : database) : N := N.of_nat (length (mboxen db)).

(* ---- writer ---- *)

(* reader.h 75 *)
Definition UI_HEADER_LEN : N := 40.

(* writer.c 54-87 struct write_map; the six toktable maps as a list of (tok_offset, enc_offset). *)
Record write_map := { path_off : N; mtime_off : N; size_off : N; date_off : N; tid_off : N;
  mbp_off : N; mbe_off : N; mbm_off : N; mbs_off : N; mbc_off : N;
  tab_offs : list (N * N); id_tok : N; id_enc0 : N; id_enc1 : N; beyond : N }.

(* writer.c 229-240: one pair of assignments per table. *)
Fixpoint map_tabs (total : N) (ts : list (toktable matches)) : list (N * N) * N :=
  match ts with
  | [] => ([], total)
  | t :: ts' => let r := map_tabs (total + tn t + tn t) ts' in ((total, total + tn t) :: fst r, snd r)
  end.

(* writer.c 210-249 compute_mapping *)
Definition compute_mapping (db : database) : write_map :=
  let n := n_msgs db in
  let nb := n_mboxen db in
  let path := UI_HEADER_LEN in
  let mtime := path + n in
  let date := mtime + n in
  let size := date + n in
  let tid := size + n in
  let mbp := tid + n in
  let mbe := mbp + nb in
  let mbm := mbe + nb in
  let mbs := mbm + nb in
  let mbc := mbs + nb in
  let r := map_tabs (mbc + nb) (tabs db) in
  let ni := tn (d_ids db) in
  {| path_off := path; mtime_off := mtime; size_off := size; date_off := date; tid_off := tid;
     mbp_off := mbp; mbe_off := mbe; mbm_off := mbm; mbs_off := mbs; mbc_off := mbc;
     tab_offs := fst r; id_tok := snd r; id_enc0 := snd r + ni; id_enc1 := snd r + ni + ni;
     beyond := snd r + ni + ni + ni |}.

Definition blen (b : bytes) : N := N.of_nat (length b).
Definition sumN (l : list N) : N := fold_right N.add 0 l.

(* writer.c 136-162 *)
Definition toktable_char_length (t : toktable matches) : N :=
  sumN (map (fun k => (1 + blen (text k)) + (1 + mn (pay k))) (toks (slots t))).
Definition toktable2_char_length (t : toktable (matches * matches)) : N :=
  sumN (map (fun k => (1 + blen (text k)) + (1 + mn (fst (pay k))) + (1 + mn (snd (pay k)))) (toks (slots t))).
(* writer.c 164-207 char_length.  sizeof(struct encoded_mbox_indices) = 8, sizeof(checksum_t) = 16. *)
Definition msg_char_length (m : msg) : N :=
  match src m with S_dead => 0 | S_mbox _ _ => 8 | S_file p _ _ => 1 + blen p | S_imap p => 1 + blen p end.
Definition mbox_char_length (mb : mbox) : N :=
  mb_n mb * 16 + match mb_path mb with Some p => 1 + blen p | None => 0 end.
Definition char_length (db : database) : N :=
  n_msgs db + sumN (map msg_char_length (msgs db)) + sumN (map mbox_char_length (mboxen db))
  + sumN (map toktable_char_length (tabs db)) + toktable2_char_length (d_ids db).

(* One store into the mapping: a word uidata[i] = v, or bytes at an offset. *)
Inductive write := W32 (i v : N) | WB (off : N) (b : bytes).

(* writer.c 251-304 write_header, in program order.  The four magic bytes 'M' 'X' 0xA5 0x04 are
   stored one by one; here as the little-endian word they form. *)
Fixpoint header_tabs (base : N) (ts : list (toktable matches)) (offs : list (N * N)) : list write :=
  match ts, offs with
  | t :: ts', (a, b) :: offs' =>
      W32 base (tn t) :: W32 (base + 1) a :: W32 (base + 2) b :: header_tabs (base + 3) ts' offs'
  | _, _ => []
  end.
Definition magic : N := 77 + 88 * 256 + 165 * 65536 + 4 * 16777216.
Definition write_header (db : database) (m : write_map) : list write :=
  [W32 0 magic; W32 1 0x44332211; W32 2 (n_msgs db);
   W32 4 (path_off m); W32 5 (mtime_off m); W32 7 (date_off m); W32 6 (size_off m); W32 8 (tid_off m);
   W32 9 (n_mboxen db); W32 10 (mbp_off m); W32 11 (mbe_off m); W32 12 (mbm_off m);
   W32 13 (mbs_off m); W32 14 (mbc_off m); W32 15 (hash_key db)]
  ++ header_tabs 16 (tabs db) (tab_offs m)
  ++ [W32 34 (tn (d_ids db)); W32 35 (id_tok m); W32 36 (id_enc0 m); W32 37 (id_enc1 m)].

(* writer.c 306-338 write_type_and_flag_table; the store and the ORs into cdata[i] as one byte. *)
Definition type_code (s : msrc) : N :=
  match s with S_dead => 0 | S_file _ _ _ => 1 | S_mbox _ _ => 2 | S_imap _ => 3 end.
Definition type_byte (m : msg) : N :=
  N.lor (N.lor (N.lor (type_code (src m)) (if seen m then 8 else 0))
               (if replied m then 16 else 0)) (if flagged m then 32 else 0).
Definition write_types (ms : list msg) (cdata : N) : list write * N :=
  ([WB cdata (map type_byte ms); W32 3 cdata], cdata + N.of_nat (length ms)).

(* mbox.c 1085-1092 encode_mbox_indices: struct encoded_mbox_indices is two uint32_t (mairix.h 385). *)
Definition encode_mbox_indices (mb msg : N) : bytes := le32 mb ++ le32 msg.
(* mbox.c 1094-1100 decode_mbox_indices *)
Definition decode_mbox_indices (data : bytes) (off : N) : res (N * N) :=
  let! mb := fetch (rd32 data off) in
  let! msg := fetch (rd32 data (off + 4)) in Ok (mb, msg).
(* mbox.c 1102-1122 verify_mbox_size_constraints: an int compared with the unsigned UINT32_MAX is
   first converted to unsigned. *)
Definition verify_mbox_size_constraints (n : Z) (counts : list Z) : bool :=
  forallb (fun k => u32_of_int k <=? 2 ^ 32 - 1) (n :: counts).

(* writer.c 340-395 write_messages, message i. *)
Definition write_message (mbs : list mbox) (m : write_map) (i : N) (x : msg) (cdata : N)
  : res (list write * N) :=
  match src x with
  | S_file p mt sz =>
    Ok ([W32 (path_off m + i) cdata; W32 (mtime_off m + i) mt; W32 (size_off m + i) sz;
         W32 (date_off m + i) (date x); W32 (tid_off m + i) (tid x); WB cdata (p ++ [0])],
        cdata + blen p + 1)
  | S_imap p =>
    Ok ([W32 (path_off m + i) cdata; W32 (date_off m + i) (date x); W32 (tid_off m + i) (tid x);
         WB cdata (p ++ [0])], cdata + blen p + 1)
  | S_mbox fi mi =>
    match nth_error mbs (N.to_nat fi) with
    | None => Err E_oob
    | Some mb =>
      match nth_error (starts mb) (N.to_nat mi), nth_error (lens mb) (N.to_nat mi) with
      | Some (Some st), Some (Some ln) =>
        Ok ([W32 (path_off m + i) cdata; W32 (mtime_off m + i) st; W32 (size_off m + i) ln;
             W32 (date_off m + i) (date x); W32 (tid_off m + i) (tid x);
             WB cdata (encode_mbox_indices fi mi)], cdata + 8)
      | None, _ | _, None => Err E_oob
      | _, _ => Err E_ub
      end
    end
  | S_dead =>
    Ok ([W32 (path_off m + i) 0; W32 (mtime_off m + i) 0; W32 (size_off m + i) 0;
         W32 (tid_off m + i) (tid x)], cdata)
  end.
Fixpoint write_messages (mbs : list mbox) (m : write_map) (i : N) (xs : list msg) (cdata : N)
  : res (list write * N) :=
  match xs with
  | [] => Ok ([], cdata)
  | x :: xs' =>
    let! (ws, c) := write_message mbs m i x cdata in
    let! (ws', c') := write_messages mbs m (i + 1) xs' c in Ok (ws ++ ws', c')
  end.

(* writer.c 407-432 write_mbox_headers *)
Fixpoint write_mbox_headers (m : write_map) (i : N) (mbs : list mbox) (cdata : N) : list write * N :=
  match mbs with
  | [] => ([], cdata)
  | mb :: mbs' =>
    let common := [W32 (mbe_off m + i) (mb_n mb); W32 (mbm_off m + i) (c_mtime mb);
                   W32 (mbs_off m + i) (c_size mb)] in
    match mb_path mb with
    | Some p =>
      let r := write_mbox_headers m (i + 1) mbs' (cdata + (1 + blen p)) in
      (common ++ [W32 (mbp_off m + i) cdata; WB cdata (p ++ [0])] ++ fst r, snd r)
    | None =>
      let r := write_mbox_headers m (i + 1) mbs' cdata in
      (common ++ [W32 (mbp_off m + i) 0] ++ fst r, snd r)
    end
  end.

(* writer.c 434-452 write_mbox_checksums; the stores for one mailbox as one entry. *)
Fixpoint write_mbox_checksums (m : write_map) (i : N) (mbs : list mbox) (cdata : N) : res (list write * N) :=
  match mbs with
  | [] => Ok ([], cdata)
  | mb :: mbs' =>
    if mb_n mb <=? N.of_nat (length (checks mb)) then
      let b := concat (firstn (N.to_nat (mb_n mb)) (checks mb)) in
      let! (ws, c) := write_mbox_checksums m (i + 1) mbs' (cdata + 16 * mb_n mb) in
      Ok (W32 (mbc_off m + i) cdata :: WB cdata b :: ws, c)
    else Err E_oob
  end.

(* The loops of writer.c 480-501, 536-565: for each item store the offset word and then the bytes. *)
Fixpoint write_items (off i : N) (items : list bytes) (cdata : N) : list write * N :=
  match items with
  | [] => ([], cdata)
  | b :: items' =>
    let r := write_items off (i + 1) items' (cdata + blen b) in
    (W32 (off + i) cdata :: WB cdata b :: fst r, snd r)
  end.
Definition text_item {P} (k : token P) : bytes := text k ++ [0].
Definition enc_item (m : matches) : bytes := msginfo m ++ [255].

(* writer.c 461-470: collect the tokens into an array of tab->n pointers; assert(j == n). *)
Definition collect {P} (t : toktable P) : res (list (token P)) :=
  let s := toks (slots t) in
  if tn t <? N.of_nat (length s) then Err E_oob
  else if N.of_nat (length s) <? tn t then Err E_assert else Ok s.

(* writer.c 454-508 write_toktable *)
Definition write_toktable (t : toktable matches) (off : N * N) (cdata : N) : res (list write * N) :=
  let! s := collect t in
  let r1 := write_items (fst off) 0 (map text_item s) cdata in
  let r2 := write_items (snd off) 0 (map (fun k => enc_item (pay k)) s) (snd r1) in
  Ok (fst r1 ++ fst r2, snd r2).
Fixpoint write_toktables (ts : list (toktable matches)) (offs : list (N * N)) (cdata : N)
  : res (list write * N) :=
  match ts, offs with
  | t :: ts', o :: offs' =>
    let! (ws, c) := write_toktable t o cdata in
    let! (ws', c') := write_toktables ts' offs' c in Ok (ws ++ ws', c')
  | _, _ => Ok ([], cdata)
  end.
(* writer.c 510-574 write_toktable2 *)
Definition write_toktable2 (t : toktable (matches * matches)) (m : write_map) (cdata : N)
  : res (list write * N) :=
  let! s := collect t in
  let r1 := write_items (id_tok m) 0 (map text_item s) cdata in
  let r2 := write_items (id_enc0 m) 0 (map (fun k => enc_item (fst (pay k))) s) (snd r1) in
  let r3 := write_items (id_enc1 m) 0 (map (fun k => enc_item (snd (pay k))) s) (snd r2) in
  Ok (fst r1 ++ fst r2 ++ fst r3, snd r3).

Definition file_len (db : database) : N := char_length db + 4 * beyond (compute_mapping db).

(* writer.c 595-609: all stores in program order, and the final value of cdata - data.
   verify_mbox_size_constraints (mbox.c 1102) never fails (proved) and is left out. *)
Definition write_trace (db : database) : res (list write * N) :=
  let m := compute_mapping db in
  let c0 := 4 * beyond m in
  let t := write_types (msgs db) c0 in
  let! (w2, c2) := write_messages (mboxen db) m 0 (msgs db) (snd t) in
  let h := write_mbox_headers m 0 (mboxen db) c2 in
  let! (w4, c4) := write_mbox_checksums m 0 (mboxen db) (snd h) in
  let! (w5, c5) := write_toktables (tabs db) (tab_offs m) c4 in
  let! (w6, c6) := write_toktable2 (d_ids db) m c5 in
  Ok (write_header db m ++ fst t ++ w2 ++ fst h ++ w4 ++ w5 ++ w6, c6).

(* writer.c 89-134 create_rw_mapping: existing bytes are kept, the file is cut or zero-extended. *)
Definition resize (old : bytes) (len : N) : bytes :=
  firstn (N.to_nat len) old ++ repeat 0 (N.to_nat len - length old).

Definition apply_write (w : write) (data : bytes) : res bytes :=
  match w with W32 i v => splice data (4 * i) (le32 v) | WB off b => splice data off b end.
Fixpoint apply_writes (ws : list write) (data : bytes) : res bytes :=
  match ws with [] => Ok data | w :: ws' => let! d := apply_write w data in apply_writes ws' d end.

(* writer.c 576-628 write_database on a file whose previous contents are [old].  file_len is an int:
   overflow is undefined. *)
Definition write_database (db : database) (old : bytes) : res bytes :=
  if 2 ^ 31 <=? file_len db then Err E_ub else
  let! (ws, _) := write_trace db in apply_writes ws (resize old (file_len db)).

(* ---- opening ---- *)

Record toktable_db := { t_n : N; t_tok : N; t_enc : N }.
Record toktable2_db := { t2_n : N; t2_tok : N; t2_enc0 : N; t2_enc1 : N }.
(* reader.h 138-172 struct read_db; pointers into the mapping are kept as word or byte offsets.
   r_n and r_nb are the 32-bit patterns of the ints n_msgs and n_mboxen. *)
Record read_db := { r_n : N; r_type : N; r_path : N; r_mtime : N; r_size : N; r_date : N; r_tid : N;
  r_nb : N; r_mbp : N; r_mbe : N; r_mbm : N; r_mbs : N; r_mbc : N; r_key : N;
  r_tabs : list toktable_db; r_ids : toktable2_db }.

(* reader.c 221-225 GET_TABLE: the sum is unsigned 32-bit, the limit a size_t. *)
Definition get_table (data : bytes) (idx n : N) : res N :=
  let! off := ui data idx in
  if (N.of_nat (length data) / 4 <? u32 (off + n)) then Err (E_exit 2) else Ok off.

(* reader.c 118-131 read_toktable_db: pointer comparison in 64 bits.  Forming a pointer past the
   mapping is formally undefined; it is taken as flat address arithmetic here. *)
Definition read_toktable_db (data : bytes) (start : N) : res toktable_db :=
  let! n := ui data start in
  let! tok := ui data (start + 1) in
  if N.of_nat (length data) <? 4 * tok + 4 * n then Err (E_exit 2) else
  let! enc := ui data (start + 2) in
  if N.of_nat (length data) <? 4 * enc + 4 * n then Err (E_exit 2) else
  Ok {| t_n := n; t_tok := tok; t_enc := enc |}.
(* reader.c 133-150 *)
Definition read_toktable2_db (data : bytes) (start : N) : res toktable2_db :=
  let! n := ui data start in
  let! tok := ui data (start + 1) in
  if N.of_nat (length data) <? 4 * tok + 4 * n then Err (E_exit 2) else
  let! enc0 := ui data (start + 2) in
  if N.of_nat (length data) <? 4 * enc0 + 4 * n then Err (E_exit 2) else
  let! enc1 := ui data (start + 3) in
  if N.of_nat (length data) <? 4 * enc1 + 4 * n then Err (E_exit 2) else
  Ok {| t2_n := n; t2_tok := tok; t2_enc0 := enc0; t2_enc1 := enc1 |}.
Fixpoint read_tabs (data : bytes) (starts : list N) : res (list toktable_db) :=
  match starts with
  | [] => Ok []
  | s :: r => let! t := read_toktable_db data s in let! ts := read_tabs data r in Ok (t :: ts)
  end.

(* reader.c 205-215: the three alternatives are joined by ||, then byte 3 is looked at. *)
Definition magic_ok (data : bytes) : bool :=
  match data with
  | a :: b :: c :: d :: _ => ((a =? 77) || (b =? 88) || (c =? 165)) && (d =? 4)
  | _ => false
  end.

(* reader.c 152-277 open_db, from the length check on.  The bound on the type table (line 235) is
   disabled by if (0 && ...). *)
Definition open_db (data : bytes) : res read_db :=
  if N.of_nat (length data) <? 160 then Err (E_exit 2) else
  if negb (magic_ok data) then Err (E_exit 2) else
  let! e := ui data 1 in
  if negb (e =? 0x44332211) then Err (E_exit 2) else
  let! n := ui data 2 in
  let! ty := ui data 3 in
  let! path := get_table data 4 n in
  let! mtime := get_table data 5 n in
  let! size := get_table data 6 n in
  let! date := get_table data 7 n in
  let! tid := get_table data 8 n in
  let! nb := ui data 9 in
  let! mbp := get_table data 10 nb in
  let! mbe := get_table data 11 nb in
  let! mbm := get_table data 12 nb in
  let! mbs := get_table data 13 nb in
  let! mbc := get_table data 14 nb in
  let! key := ui data 15 in
  let! ts := read_tabs data [16; 19; 22; 25; 28; 31] in
  let! ids := read_toktable2_db data 34 in
  Ok {| r_n := n; r_type := ty; r_path := path; r_mtime := mtime; r_size := size; r_date := date;
        r_tid := tid; r_nb := nb; r_mbp := mbp; r_mbe := mbe; r_mbm := mbm; r_mbs := mbs;
        r_mbc := mbc; r_key := key; r_tabs := ts; r_ids := ids |}.

(* ---- loading (db.c 381-493) ---- *)

(* The memcpy of db.c 421-425: nn checksums of 16 bytes. *)
Fixpoint chop (k : nat) (s : bytes) : list bytes :=
  match k with O => [] | S k' => firstn 16 s :: chop k' (skipn 16 s) end.
(* db.c 404-436, mailbox i.  [gm] supplies the fields left uninitialised (current_mtime/size). *)
Definition load_mbox (gm : N) (data : bytes) (r : read_db) (i : N) : res mbox :=
  let! po := ui data (r_mbp r + i) in
  let! path := (if po =? 0 then Ok None else let! p := cstr data po in Ok (Some p)) in
  let! mt := ui data (r_mbm r + i) in
  let! sz := ui data (r_mbs r + i) in
  let! nn := ui data (r_mbe r + i) in
  if (0 <? int_of_u32 nn)%Z then
    let! co := ui data (r_mbc r + i) in
    let! cks := fetch (sub data co (16 * nn)) in
    Ok {| mb_path := path; f_mtime := mt; f_size := sz; c_mtime := gm; c_size := gm; mb_n := nn;
          starts := repeat None (N.to_nat nn); lens := repeat None (N.to_nat nn);
          checks := chop (N.to_nat nn) cks |}
  else
    Ok {| mb_path := path; f_mtime := mt; f_size := sz; c_mtime := gm; c_size := gm; mb_n := nn;
          starts := []; lens := []; checks := [] |}.
Fixpoint load_mboxen (gm : N) (data : bytes) (r : read_db) (k : nat) (i : N) : res (list mbox) :=
  match k with
  | O => Ok []
  | S k' => let! mb := load_mbox gm data r i in
            let! mbs := load_mboxen gm data r k' (i + 1) in Ok (mb :: mbs)
  end.

Definition with_entry (mb : mbox) (n : nat) (st ln : N) : mbox :=
  {| mb_path := mb_path mb; f_mtime := f_mtime mb; f_size := f_size mb; c_mtime := c_mtime mb;
     c_size := c_size mb; mb_n := mb_n mb; starts := set_nth (starts mb) n (Some st);
     lens := set_nth (lens mb) n (Some ln); checks := checks mb |}.

(* db.c 438-481, message i.  [mbs] pairs each mailbox with its n_so_far counter. *)
Definition load_msg (data : bytes) (r : read_db) (i : N) (mbs : list (mbox * N))
  : res (msg * list (mbox * N)) :=
  let! tf := fetch (rd8 data (r_type r + i)) in
  let! (s, mbs') :=
    (match N.land tf 7 with
     | 0 => Ok (S_dead, mbs)
     | 1 => let! po := ui data (r_path r + i) in
            let! p := cstr data po in
            let! mt := ui data (r_mtime r + i) in
            let! sz := ui data (r_size r + i) in Ok (S_file p mt sz, mbs)
     | 3 => let! po := ui data (r_path r + i) in
            let! p := cstr data po in Ok (S_imap p, mbs)
     | 2 => let! po := ui data (r_path r + i) in
            let! (mbi, msgi) := decode_mbox_indices data po in
            if mbi <? N.of_nat (length mbs) then
              match nth_error mbs (N.to_nat mbi) with
              | None => Err E_oob
              | Some (mb, so_far) =>
                if negb (so_far =? msgi) then Err E_assert else
                if N.of_nat (length (starts mb)) <=? so_far then Err E_oob else
                let! st := ui data (r_mtime r + i) in
                let! ln := ui data (r_size r + i) in
                Ok (S_mbox mbi so_far,
                    set_nth mbs (N.to_nat mbi) (with_entry mb (N.to_nat so_far) st ln, so_far + 1))
              end
            else Err E_oob
     | _ => Err E_ub   (* no case: type[i] stays uninitialised *)
     end) in
  let! dt := ui data (r_date r + i) in
  let! td := ui data (r_tid r + i) in
  Ok ({| src := s; date := dt; tid := td;
         seen := negb (N.land tf 8 =? 0); replied := negb (N.land tf 16 =? 0);
         flagged := negb (N.land tf 32 =? 0) |}, mbs').
Fixpoint load_msgs (data : bytes) (r : read_db) (k : nat) (i : N) (mbs : list (mbox * N))
  : res (list msg * list (mbox * N)) :=
  match k with
  | O => Ok ([], mbs)
  | S k' => let! (m, mbs1) := load_msg data r i mbs in
            let! (ms, mbs2) := load_msgs data r k' (i + 1) mbs1 in Ok (m :: ms, mbs2)
  end.

(* db.c 285-312: the entries of one table as read from the file.  [gi] supplies the uninitialised
   [index] of int_list_reader_copy for an empty list at a given offset.  All entries are read before
   any is hashed (the program interleaves), which can only change which error is reported first. *)
Definition load_list (gi : N -> N) (data : bytes) (off : N) : res matches :=
  fetch (copy_list (gi off) data (N.to_nat off)).
Definition load_text (data : bytes) (off : N) : res bytes :=
  match get_db_token data (N.to_nat off) with
  | T_ok t => Ok t
  | T_none => Err (E_exit 1)
  | T_oob _ => Err E_oob
  | T_fuel => Err E_fuel
  end.
Fixpoint load_entries (gi : N -> N) (data : bytes) (nm : N) (t : toktable_db) (k : nat) (i : N)
  : res (list (bytes * matches)) :=
  match k with
  | O => Ok []
  | S k' =>
    let! eo := ui data (t_enc t + i) in
    let! m := load_list gi data eo in
    let! to := ui data (t_tok t + i) in
    let! w := load_text data to in
    if nm <=? highest m then Err E_assert else
    let! rest := load_entries gi data nm t k' (i + 1) in Ok ((w, m) :: rest)
  end.
Fixpoint load_entries2 (gi : N -> N) (data : bytes) (nm : N) (t : toktable2_db) (k : nat) (i : N)
  : res (list (bytes * (matches * matches))) :=
  match k with
  | O => Ok []
  | S k' =>
    let! eo := ui data (t2_enc0 t + i) in
    let! m0 := load_list gi data eo in
    let! eo1 := ui data (t2_enc1 t + i) in
    let! m1 := load_list gi data eo1 in
    let! to := ui data (t2_tok t + i) in
    let! w := load_text data to in
    if (nm <=? highest m0) || (nm <=? highest m1) then Err E_assert else
    let! rest := load_entries2 gi data nm t k' (i + 1) in Ok ((w, (m0, m1)) :: rest)
  end.

Fixpoint load_tabs (hashf : bytes -> N) (gi : N -> N) (data : bytes) (nm : N) (ts : list toktable_db)
  : res (list (toktable matches)) :=
  match ts with
  | [] => Ok []
  | t :: ts' =>
    let! es := load_entries gi data nm t (N.to_nat (t_n t)) 0 in
    let! tab := import_toktable hashf true es in
    let! r := load_tabs hashf gi data nm ts' in Ok (tab :: r)
  end.

(* db.c 381-493 new_database_from_file on file contents [data].  [hashf key] is hashfn with the
   stored key.  A negative count (int) is undefined behaviour in new_array. *)
Definition load (hashf : N -> bytes -> N) (gi : N -> N) (gm : N) (data : bytes) : res database :=
  let! r := open_db data in
  if (int_of_u32 (r_n r) <? 0)%Z || (int_of_u32 (r_nb r) <? 0)%Z then Err E_ub else
  let! mbs := load_mboxen gm data r (N.to_nat (r_nb r)) 0 in
  let! (ms, mbs') := load_msgs data r (N.to_nat (r_n r)) 0 (map (fun mb => (mb, 0)) mbs) in
  let! ts := load_tabs (hashf (r_key r)) gi data (r_n r) (r_tabs r) in
  let! es := load_entries2 gi data (r_n r) (r_ids r) (N.to_nat (t2_n (r_ids r))) 0 in
  let! ids := import_toktable (hashf (r_key r)) false es in
  match ts with
  | [a; b; c; d; e; f] =>
    Ok {| msgs := ms; mboxen := map fst mbs'; hash_key := r_key r;
          d_to := a; d_cc := b; d_from := c; d_subject := d; d_body := e; d_att := f; d_ids := ids |}
  | _ => Err E_ub
  end.

(* ---- integrity checks (db.c 53-195) ---- *)

(* int converted to unsigned long for the comparison at line 71. *)
Definition ulong_of_int (z : Z) : N := Z.to_N (z mod 2 ^ 64).
(* db.c 65-83, the tokens in slot order; [idx] is the int of line 58, uninitialised at first and
   kept from the previous token when a list is empty. *)
Fixpoint chains_ok (n : Z) (idx : Z) (ts : list (token matches)) : res bool :=
  match ts with
  | [] => Ok true
  | t :: ts' =>
    match read_matches (pay t) with
    | RA_ok xs _ =>
      let idx' := match xs with [] => idx | _ => int_of_u32 (last xs 0) end in
      let! r := chains_ok n idx' ts' in
      Ok ((ulong_of_int idx' =? highest (pay t)) && (idx' <? n)%Z && r)
    | RA_oob _ => Err E_oob
    | RA_fuel => Err E_fuel
    end
  end.
(* qsort and comparison of neighbours (lines 101-113): true if two entries are equal. *)
Fixpoint any_dup (l : list bytes) : bool :=
  match l with [] => false | a :: l' => existsb (bytes_eqb a) l' || any_dup l' end.
(* db.c 53-119 check_toktable_enc_integrity *)
Definition check_toktable (n : Z) (idx : Z) (t : toktable matches) : res unit :=
  let! ok := chains_ok n idx (toks (slots t)) in
  if negb ok then Err E_assert else
  let! s := collect t in
  if any_dup (map text s) then Err E_assert else Ok tt.
(* db.c 128-175 check_message_path_integrity *)
Definition file_paths (db : database) : list bytes :=
  flat_map (fun m => match src m with S_file p _ _ => [p] | _ => [] end) (msgs db).
Definition imap_paths (db : database) : list bytes :=
  flat_map (fun m => match src m with S_imap p => [p] | _ => [] end) (msgs db).
Definition check_paths (db : database) : res unit :=
  if any_dup (file_paths db) || any_dup (imap_paths db) then Err E_assert else Ok tt.
(* db.c 176-195 check_database_integrity; the message-id table is not checked.  [idx] supplies the
   uninitialised int of each call. *)
Fixpoint check_tabs (n : Z) (idx : Z) (ts : list (toktable matches)) : res unit :=
  match ts with [] => Ok tt | t :: ts' => let! _ := check_toktable n idx t in check_tabs n idx ts' end.
Definition check_database_integrity (idx : Z) (db : database) : res unit :=
  let! _ := check_paths db in check_tabs (Z.of_N (n_msgs db)) idx (tabs db).
