(* search.c 1283-1322: the results of a search brought into a folder on a mail server (mformat=imap).
   The connection is there (GET_IMAP succeeded); had_failed_checksum, which only leads to a message at the end, is left out. *)
From Verif Require Import Base M_DbFile M_Search M_Output M_Imap.
Local Open Scope N_scope.

Section To_imap.
Context (csum : bytes -> bytes) (expand : bytes -> bytes -> option bytes).
Context (S : Type) (serve : S -> bytes -> S * option (list bytes)).

(* search.c 676-704: *msg_len, which get_validated_mbox_msg sets before it compares checksums *)
Definition msg_len (d : disc) (F : bytes) (r : read_db) (i : N) : res N :=
  let! off := ui F (r_path r + i) in
  let! (mbi, msgi) := decode_mbox_indices F off in
  let! po := ui F (r_mbp r + mbi) in
  let! path := cstr F po in
  let! m := map_file expand d path in
  match m with
  | None => Ok 0
  | Some b =>
      let! start := ui F (r_mtime r + i) in
      let! size := ui F (r_size r + i) in
      Ok (if blen b <=? start then 0
          else if blen b <=? (start + size) mod 2 ^ 32 then blen b - start else size)
  end.
(* imapinterface.c 381-422 with a pointer that may be NULL: imap.c 778 copies len bytes from it, after the
   folder has been selected.  Copying 0 bytes from NULL is taken to do nothing. *)
Definition append_from (k : conn S) (folder : bytes) (data : option bytes) (len : N) (seen answered flagged : bool) : res (conn S) :=
  match data with
  | Some t => imap_append_new_message S serve k folder t seen answered flagged
  | None =>
      if len =? 0 then imap_append_new_message S serve k folder [] seen answered flagged
      else let! (u, k1) := imap_select S serve k folder true in
           match u with None => Ok k1 | Some _ => Err E_ub end
  end.
(* search.c 1289-1319: one result *)
Definition to_imap (F : bytes) (r : read_db) (folder : bytes) (d : disc) (k : conn S) (i : N) : res (conn S) :=
  let! (seen, replied, flagged) := get_flags F r i in
  let! ty := rd_msg_type F r i in
  if ty =? 1 then
    let! p := path_at F r i in
    let! m := map_file expand d p in
    match m with
    | Some t => imap_append_new_message S serve k folder t seen replied flagged
    | None => Ok k
    end
  else if ty =? 3 then
    let! p := path_at F r i in imap_copy_message S serve k p folder
  else if ty =? 2 then
    let! v := get_validated_mbox_msg csum expand d F r i in
    let! len := msg_len d F r i in
    append_from k folder (match v with V_good _ t => Some t | _ => None end) len seen replied flagged
  else Ok k.
(* search.c 1285-1322 *)
Fixpoint to_imap_each (F : bytes) (r : read_db) (folder : bytes) (d : disc) (k : conn S) (l : list N) : res (conn S) :=
  match l with
  | [] => Ok k
  | i :: l' => let! k1 := to_imap F r folder d k i in to_imap_each F r folder d k1 l'
  end.
Definition output_imap (F : bytes) (r : read_db) (please_clear : bool) (folder : bytes) (d : disc) (k : conn S) (l : list N) : res (conn S) :=
  let! k1 := if please_clear then imap_clear_folder S serve k folder else Ok k in
  to_imap_each F r folder d k1 l.
End To_imap.
