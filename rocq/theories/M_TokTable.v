(* Model of the word hash tables: tok.c 67-154, 245-339 (building), db.c 268-379 (loading),
   db.c 1062-1249 (purging).  toktable and toktable2 (tok.c / mairix.h) are the same code over a
   token with one or two lists; here one definition, with the payload [P] a parameter
   (P = matches for toktable, P = matches * matches for toktable2). *)
From Verif Require Import Base M_Encoding.
Local Open Scope N_scope.

Section Table.
Variable P : Type.

(* mairix.h 108-122 struct token / token2 *)
Record token := { text : bytes; hashval : N; pay : P }.

(* mairix.h 124-138 struct toktable / toktable2.  [slots] is the array tokens[0..size-1]. *)
Record toktable := { slots : list (option token); tn : N; hwm : N; tmask : N }.
Definition tsize (t : toktable) : N := N.of_nat (length (slots t)).

(* The tokens in slot order, which is the order writer.c 454-508 / 510-574 writes them in. *)
Fixpoint toks (sl : list (option token)) : list token :=
  match sl with [] => [] | None :: sl' => toks sl' | Some t :: sl' => t :: toks sl' end.
Definition entries (t : toktable) : list (bytes * P) :=
  map (fun k => (text k, pay k)) (toks (slots t)).

(* tok.c 67-86 new_toktable(2).  mask is left uninitialised there; nothing reads it before the first
   enlarge because n >= hwm. *)
Definition new_toktable : toktable := {| slots := []; tn := 0; hwm := 0; tmask := 0 |}.

(* tok.c 143-146: the loop that looks for a free slot when rehashing (no comparison of texts).
   [fuel] bounds the number of slots inspected; exhausting it means the loop never ends. *)
Fixpoint probe_free (fuel : nat) (sl : list (option token)) (mask idx : N) : res N :=
  match fuel with
  | O => Err E_fuel
  | S f =>
    match nth_error sl (N.to_nat idx) with
    | None => Err E_oob
    | Some None => Ok idx
    | Some (Some _) => probe_free f sl mask (N.land (idx + 1) mask)
    end
  end.

(* tok.c 139-149, one step of the rehash loop. *)
Definition place (mask : N) (sl : list (option token)) (tok : token) : res (list (option token)) :=
  let! i := probe_free (length sl) sl mask (N.land (hashval tok) mask) in
  Ok (set_nth sl (N.to_nat i) (Some tok)).

Fixpoint rehash (mask : N) (old : list (option token)) (sl : list (option token))
  : res (list (option token)) :=
  match old with
  | [] => Ok sl
  | None :: old' => rehash mask old' sl
  | Some tok :: old' => let! sl' := place mask sl tok in rehash mask old' sl'
  end.

(* tok.c 117-154 and 156-193 enlarge_toktable(2).  The array size is a C int that doubles; overflow
   (more than 2^30 slots) is not modelled. *)
Definition enlarge (t : toktable) : res toktable :=
  if tsize t =? 0 then
    let size := 1024 in
    Ok {| slots := repeat None (N.to_nat size); tn := tn t;
          hwm := N.shiftr size 2 + N.shiftr size 3; tmask := size - 1 |}
  else
    let size := N.shiftl (tsize t) 1 in
    let! sl := rehash (size - 1) (slots t) (repeat None (N.to_nat size)) in
    Ok {| slots := sl; tn := tn t; hwm := N.shiftr size 2 + N.shiftr size 3; tmask := size - 1 |}.

(* tok.c 266-272: probe until the word or a free slot is met. *)
Fixpoint probe (fuel : nat) (sl : list (option token)) (mask : N) (w : bytes) (idx : N) : res N :=
  match fuel with
  | O => Err E_fuel
  | S f =>
    match nth_error sl (N.to_nat idx) with
    | None => Err E_oob
    | Some None => Ok idx
    | Some (Some tok) =>
      if bytes_eqb w (text tok) then Ok idx else probe f sl mask w (N.land (idx + 1) mask)
    end
  end.

(* tok.c 245-289 add_token_in_file / 291-339 add_token2_in_file.
   [hashf] is hashfn with the database's hash key; [pinit] the payload of a fresh token; [upd] the
   list update(s) of lines 287-288 / 332-337 for the given message (None = failed assertion). *)
Definition add_token {U : Type} (hashf : bytes -> N) (pinit : P) (upd : U -> P -> option P)
    (t : toktable) (w : bytes) (u : U) : res toktable :=
  let lc := map tolower w in
  let hash := hashf lc in
  let! t1 := (if hwm t <=? tn t then enlarge t else Ok t) in
  let! idx := probe (length (slots t1)) (slots t1) (tmask t1) lc (N.land hash (tmask t1)) in
  match nth_error (slots t1) (N.to_nat idx) with
  | None => Err E_oob
  | Some slot =>
    let tok := match slot with
               | None => {| text := lc; hashval := hash; pay := pinit |}
               | Some tk => tk end in
    let n' := match slot with None => tn t1 + 1 | Some _ => tn t1 end in
    match upd u (pay tok) with
    | None => Err E_assert
    | Some p' =>
      Ok {| slots := set_nth (slots t1) (N.to_nat idx)
                       (Some {| text := text tok; hashval := hashval tok; pay := p' |});
            tn := n'; hwm := hwm t1; tmask := tmask t1 |}
    end
  end.

(* A history of recorded words. *)
Fixpoint add_tokens {U : Type} (hashf : bytes -> N) (pinit : P) (upd : U -> P -> option P)
    (t : toktable) (hs : list (bytes * U)) : res toktable :=
  match hs with
  | [] => Ok t
  | (w, u) :: hs' => let! t' := add_token hashf pinit upd t w u in add_tokens hashf pinit upd t' hs'
  end.

(* db.c 272-275, 333-336: least power of two >= n, by doubling from 1. *)
Fixpoint pow2_from (fuel : nat) (s n : N) : res N :=
  match fuel with
  | O => Err E_fuel
  | S f => if s <? n then pow2_from f (N.shiftl s 1) n else Ok s
  end.

(* db.c 268-327 import_toktable (dupcheck = true) and 329-379 import_toktable2 (dupcheck = false):
   [ents] are the (text, lists) pairs read from the file in order; reading them is modelled in
   M_DbFile.  A repeated text makes import_toktable exit(1); import_toktable2 does not look.  The
   number of entries is a C int; [ents] stands for the non-negative case. *)
Fixpoint import_loop (hashf : bytes -> N) (dupcheck : bool) (mask : N)
    (ents : list (bytes * P)) (sl : list (option token)) : res (list (option token)) :=
  match ents with
  | [] => Ok sl
  | (w, p) :: ents' =>
    let tok := {| text := w; hashval := hashf w; pay := p |} in
    let h := N.land (hashf w) mask in
    let! i := (if dupcheck then probe (length sl) sl mask w h else probe_free (length sl) sl mask h) in
    match nth_error sl (N.to_nat i) with
    | None => Err E_oob
    | Some (Some _) => Err (E_exit 1)
    | Some None => import_loop hashf dupcheck mask ents' (set_nth sl (N.to_nat i) (Some tok))
    end
  end.

Definition import_toktable (hashf : bytes -> N) (dupcheck : bool) (ents : list (bytes * P))
  : res toktable :=
  let n := N.of_nat (length ents) in
  let! s := pow2_from (S (length ents)) 1 n in
  let size := N.shiftl s 1 in
  let! sl := import_loop hashf dupcheck (size - 1) ents (repeat None (N.to_nat size)) in
  Ok {| slots := sl; tn := n; hwm := N.shiftr (n + size) 1; tmask := size - 1 |}.

(* ---- purge ---- *)

(* db.c 1093-1119 / 1176-1200, first pass: recode every token; drop those left empty. *)
Fixpoint recode_slots (rec : P -> res P) (dead : P -> bool) (sl : list (option token))
  : res (list (option token) * N) :=
  match sl with
  | [] => Ok ([], 0)
  | None :: sl' => let! r := recode_slots rec dead sl' in Ok (None :: fst r, snd r)
  | Some tok :: sl' =>
    let! p := rec (pay tok) in
    let! r := recode_slots rec dead sl' in
    if dead p then Ok (None :: fst r, snd r + 1)
    else Ok (Some {| text := text tok; hashval := hashval tok; pay := p |} :: fst r, snd r)
  end.

(* db.c 1142-1157: first free bucket from [j] up to (not including) [i]. *)
Fixpoint find_gap (fuel : nat) (sl : list (option token)) (mask j i : N) : res (option N) :=
  match fuel with
  | O => Err E_fuel
  | S f =>
    if j =? i then Ok None
    else match nth_error sl (N.to_nat j) with
         | None => Err E_oob
         | Some None => Ok (Some j)
         | Some (Some _) => find_gap f sl mask (N.land (j + 1) mask) i
         end
  end.

(* db.c 1136-1164: bucket [i] of one pass; the flag is any_moved. *)
Definition close_one (mask : N) (sl : list (option token)) (i : N) : res (list (option token) * bool) :=
  match nth_error sl (N.to_nat i) with
  | None => Err E_oob
  | Some None => Ok (sl, false)
  | Some (Some tok) =>
    let nat_bucket := N.land (hashval tok) mask in
    if nat_bucket =? i then Ok (sl, false)
    else let! g := find_gap (S (length sl)) sl mask nat_bucket i in
         match g with
         | None => Ok (sl, false)
         | Some j => Ok (set_nth (set_nth sl (N.to_nat j) (Some tok)) (N.to_nat i) None, true)
         end
  end.

Fixpoint close_pass (mask : N) (is : list nat) (sl : list (option token)) (moved : bool)
  : res (list (option token) * bool) :=
  match is with
  | [] => Ok (sl, moved)
  | i :: is' => let! r := close_one mask sl (N.of_nat i) in
                close_pass mask is' (fst r) (moved || snd r)
  end.

(* db.c 1127-1165: passes until nothing moves. *)
Fixpoint close_gaps (fuel : nat) (mask : N) (sl : list (option token)) : res (list (option token)) :=
  match fuel with
  | O => Err E_fuel
  | S f => let! r := close_pass mask (seq 0 (length sl)) sl false in
           if snd r then close_gaps f mask (fst r) else Ok (fst r)
  end.

(* db.c 1086-1167 recode_toktable, 1169-1249 recode_toktable2 *)
Definition recode_table (fuel : nat) (rec : P -> res P) (dead : P -> bool) (t : toktable) : res toktable :=
  let! r := recode_slots rec dead (slots t) in
  let! sl := (if 0 <? snd r then close_gaps fuel (tmask t) (fst r) else Ok (fst r)) in
  Ok {| slots := sl; tn := tn t - snd r; hwm := hwm t; tmask := tmask t |}.

End Table.

Arguments text {P}. Arguments hashval {P}. Arguments pay {P}.
Arguments slots {P}. Arguments tn {P}. Arguments hwm {P}. Arguments tmask {P}. Arguments tsize {P}.
Arguments add_token {P U}. Arguments add_tokens {P U}. Arguments import_toktable {P}.
Arguments recode_table {P}. Arguments enlarge {P}. Arguments probe {P}. Arguments probe_free {P}.
Arguments place {P}. Arguments rehash {P}. Arguments import_loop {P}. Arguments recode_slots {P}.
Arguments find_gap {P}. Arguments close_one {P}. Arguments close_pass {P}. Arguments close_gaps {P}.
Arguments new_toktable {P}. Arguments toks {P}. Arguments entries {P}.

(* tok.c 287-288 *)
Definition upd1 (idx : N) (m : matches) : option matches := add_index m idx.
(* tok.c 332-337: the argument is (message, add_to_chain1) *)
Definition upd2 (u : N * bool) (p : matches * matches) : option (matches * matches) :=
  match add_index (fst p) (fst u) with
  | None => None
  | Some m0 => if snd u then match add_index (snd p) (fst u) with
                             | Some m1 => Some (m0, m1) | None => None end
               else Some (m0, snd p)
  end.

(* db.c 1062-1084 recode_encoding.  [new_idx] is the array of new numbers, None for -1.  The reader
   hands over the accumulator as int; a negative or too large index is an out-of-bounds access. *)
Fixpoint recode_values (new_idx : list (option N)) (vs : list N) (m : matches) : res matches :=
  match vs with
  | [] => Ok m
  | v :: vs' =>
    if (int_of_u32 v <? 0)%Z then Err E_oob else
    match nth_error new_idx (N.to_nat v) with
    | None => Err E_oob
    | Some None => recode_values new_idx vs' m
    | Some (Some n) => match add_index m n with
                       | None => Err E_assert
                       | Some m' => recode_values new_idx vs' m' end
    end
  end.
Definition recode_encoding (new_idx : list (option N)) (m : matches) : res matches :=
  match read_matches m with
  | RA_ok vs _ => recode_values new_idx vs {| msginfo := []; mmax := mmax m; highest := 0 |}
  | RA_oob _ => Err E_oob
  | RA_fuel => Err E_fuel
  end.
Definition m_empty (m : matches) : bool := mn m =? 0.

(* db.c 1098-1099 and 1181-1183 *)
Definition recode1 (new_idx : list (option N)) : matches -> res matches := recode_encoding new_idx.
Definition recode2 (new_idx : list (option N)) (p : matches * matches) : res (matches * matches) :=
  let! a := recode_encoding new_idx (fst p) in
  let! b := recode_encoding new_idx (snd p) in Ok (a, b).
Definition dead1 : matches -> bool := m_empty.
Definition dead2 (p : matches * matches) : bool := m_empty (fst p) && m_empty (snd p).

(* db.c 1270-1285: the new index array; [live i] is type != MTY_DEAD. *)
Fixpoint new_index_array (live : list bool) (j : N) : list (option N) :=
  match live with
  | [] => []
  | true :: l => Some j :: new_index_array l (j + 1)
  | false :: l => None :: new_index_array l j
  end.
