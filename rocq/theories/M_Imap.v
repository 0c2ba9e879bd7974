(* imap.c: the IMAP protocol, reading and writing; imapinterface.c: what mairix does with it.
   Without USE_OPENSSL.  malloc() is taken to succeed. *)
From Verif Require Import Base M_Output M_Search M_Tokens M_Rfc822.
Local Open Scope N_scope.

(* imap.h 9-22, 24-33: a token with its children.  The types only imap_ll_build uses are left out. *)
Inductive tltype := T_untagged | T_tagged | T_list | T_sqlist | T_atom | T_string | T_continuation.
Inductive tok := Tok (ty : tltype) (leaf : option bytes) (kids : list tok).
Definition t_type (t : tok) : tltype := match t with Tok ty _ _ => ty end.
Definition t_leaf (t : tok) : option bytes := match t with Tok _ l _ => l end.
Definition t_kids (t : tok) : list tok := match t with Tok _ _ ks => ks end.
Definition same_type (a b : tltype) : bool :=
  match a, b with
  | T_untagged, T_untagged | T_tagged, T_tagged | T_list, T_list | T_sqlist, T_sqlist | T_atom, T_atom | T_string, T_string | T_continuation, T_continuation => true
  | _, _ => false
  end.
(* A C string in a buffer that ends with a NUL: up to the first NUL. *)
Fixpoint c_str (s : bytes) : bytes := match s with [] => [] | c :: s' => if c =? 0 then [] else c :: c_str s' end.
(* strcmp(leaf, text) == 0; the leaf of an atom or a string is never NULL *)
Definition leaf_is (t : tok) (text : string) : bool := match t_leaf t with Some l => bytes_eqb (c_str l) (bs text) | None => false end.
Definition is_atom (t : tok) : bool := same_type (t_type t) T_atom.

(* The variables of imap_ll_waitline, imap.c 236-247.  The nodes that are still open, innermost first,
   stand for [node] and its parents; the outermost is [line].  A "+" line has no node. *)
Record reader := {
  r_state : N;
  r_plus : bool;
  r_open : list (tltype * list tok);
  r_num : Z;
  r_cur : option (bytes * N) }.        (* curtoken with its curtoken_now bytes, curtoken_max *)
Definition reader0 : reader := {| r_state := 0; r_plus := false; r_open := []; r_num := 0; r_cur := None |}.
Definition with_state (r : reader) (s : N) : reader := {| r_state := s; r_plus := r_plus r; r_open := r_open r; r_num := r_num r; r_cur := r_cur r |}.
Definition with_open (r : reader) (o : list (tltype * list tok)) : reader := {| r_state := r_state r; r_plus := r_plus r; r_open := o; r_num := r_num r; r_cur := r_cur r |}.
Definition with_num (r : reader) (n : Z) : reader := {| r_state := r_state r; r_plus := r_plus r; r_open := r_open r; r_num := n; r_cur := r_cur r |}.
Definition with_cur (r : reader) (c : option (bytes * N)) : reader := {| r_state := r_state r; r_plus := r_plus r; r_open := r_open r; r_num := r_num r; r_cur := c |}.

(* imap.c 170-189: the buffer has room for curtoken_max bytes and a NUL *)
Definition mktoken (ty : tltype) (c : bytes * N) : res tok :=
  let (s, max) := c in if N.of_nat (length s) <=? max then Ok (Tok ty (Some s) []) else Err E_oob.
(* imap.c 191-205, for a leaf *)
Definition grow_leaf (o : list (tltype * list tok)) (t : tok) : res (list (tltype * list tok)) :=
  match o with (ty, ks) :: o' => Ok ((ty, ks ++ [t]) :: o') | [] => Err E_ub end.
(* imap.c 191-205, for a list, which becomes the node *)
Definition grow_list (o : list (tltype * list tok)) (ty : tltype) : res (list (tltype * list tok)) :=
  match o with _ :: _ => Ok ((ty, []) :: o) | [] => Err E_ub end.
(* node = node->parent *)
Definition close_node (o : list (tltype * list tok)) : res (list (tltype * list tok)) :=
  match o with (ty, ks) :: (ty', ks') :: o' => Ok ((ty', ks' ++ [Tok ty None ks]) :: o') | _ => Err E_ub end.
(* line, with what is still open *)
Fixpoint whole_line (t : option tok) (o : list (tltype * list tok)) : option tok :=
  match o with
  | [] => t
  | (ty, ks) :: o' => whole_line (Some (Tok ty None (match t with Some u => ks ++ [u] | None => ks end))) o'
  end.
Definition the_line (r : reader) : option tok := if r_plus r then Some (Tok T_continuation None []) else whole_line None (r_open r).
(* imap.c 356-365: token_extend *)
Definition token_extend (c : bytes * N) (x : N) : res (bytes * N) :=
  let (s, max) := c in
  let max' := if max <=? N.of_nat (length s) then 2 * max else max in
  if N.of_nat (length s) <? max' + 1 then Ok (s ++ [x], max') else Err E_oob.
(* finish curtoken and add it to the node, as the code does in several places *)
Definition finish (ty : tltype) (r : reader) : res reader :=
  match r_cur r with
  | Some c => let! t := mktoken ty c in let! o := grow_leaf (r_open r) t in Ok (with_cur (with_open r o) None)
  | None => Ok r
  end.
(* recv_tag *= 10; recv_tag += cur - '0': an int *)
Definition add_digit (n : Z) (c : N) : res Z := let v := (n * 10 + Z.of_N (c - 48))%Z in if (v <? 2147483648)%Z then Ok v else Err E_ub.

Inductive outcome := More (r : reader) | Done (line : option tok).
(* imap.c 251-410: one byte *)
Definition step (tag : Z) (r : reader) (cur : N) : res outcome :=
  if (cur =? 10) && (r_state r <? 7) then
    if r_state r =? 4 then let! r' := finish T_atom r in Ok (Done (the_line r')) else Ok (Done (the_line r))
  else
    match r_state r with
    | 0 => Ok (More (if cur =? 42 then with_state r 1
                     else if cur =? 116 then with_num (with_state r 2) 0
                     else if cur =? 43 then {| r_state := 3; r_plus := true; r_open := r_open r; r_num := r_num r; r_cur := r_cur r |}
                     else with_state r 3))
    | 1 => Ok (More (if cur =? 32 then with_state (with_open r [(T_untagged, [])]) 4 else with_state r 3))
    | 2 => if cur =? 32 then Ok (More (if (r_num r =? tag)%Z then with_state (with_open r [(T_tagged, [])]) 4 else with_state r 3))
           else if isdigit cur then let! n := add_digit (r_num r) cur in Ok (More (with_num r n))
           else Ok (More (with_state r 3))
    | 3 => Ok (More r)
    | 4 => if cur =? 34 then Ok (More (with_cur (with_state r 5) (Some ([], 50))))
           else if cur =? 123 then Ok (More (with_num (with_state r 6) 0))
           else if (cur =? 91) && match r_open r with [(_, [_])] => true | _ => false end then
             let! o := grow_list (r_open r) T_sqlist in Ok (More (with_open r o))
           else if cur =? 40 then let! o := grow_list (r_open r) T_list in Ok (More (with_open r o))
           else match r_open r with
                | [] => Err E_ub
                | (ty, _) :: _ =>
                    if same_type ty T_list && (cur =? 41) || same_type ty T_sqlist && (cur =? 93) then
                      let! r' := finish T_atom r in let! o := close_node (r_open r') in Ok (More (with_open r' o))
                    else if (cur =? 32) || (cur =? 9) || (cur =? 13) then let! r' := finish T_atom r in Ok (More r')
                    else let! c := token_extend (match r_cur r with Some c => c | None => ([], 25) end) cur in Ok (More (with_cur r (Some c)))
                end
    | 5 => if cur =? 34 then let! r' := finish T_string r in Ok (More (with_state r' 4))
           else match r_cur r with
                | Some c => let! c' := token_extend c cur in Ok (More (with_cur r (Some c')))
                | None => Err E_ub
                end
    | 6 => if cur =? 125 then Ok (More (with_state r 7))
           else if isdigit cur then let! n := add_digit (r_num r) cur in Ok (More (with_num r n))
           else Ok (More (with_state r 3))
    | 7 => if cur =? 13 then Ok (More r)
           else
             let r' := with_cur r (Some ([], Z.to_N (r_num r))) in
             if (r_num r =? 0)%Z then let! r'' := finish T_string r' in Ok (More (with_state r'' 4)) else Ok (More (with_state r' 8))
    | _ => match r_cur r with
           | Some (s, max) =>
               if N.of_nat (length s) <? max + 1 then
                 let r' := with_cur r (Some (s ++ [cur], max)) in
                 if N.of_nat (length s) + 1 =? max then let! r'' := finish T_string r' in Ok (More (with_state r'' 4)) else Ok (More r')
               else Err E_oob
           | None => Err E_ub
           end
    end.
(* imap.c 250-411: the bytes in the buffer *)
Fixpoint eat (tag : Z) (r : reader) (buf : bytes) : res (reader + option tok * bytes) :=
  match buf with
  | [] => Ok (inl r)
  | c :: buf' => let! o := step tag r c in match o with More r' => eat tag r' buf' | Done l => Ok (inr (l, buf')) end
  end.
(* imap.c 233-478.  [net] is what the next calls of read() will give; when there is no more, the end of
   the file, an error or the timeout makes it return NULL. *)
Fixpoint waitline (tag : Z) (r : reader) (buf : bytes) (net : list bytes) : res (option tok * bytes * list bytes) :=
  let! x := eat tag r buf in
  match x with
  | inr (l, b) => Ok (l, b, net)
  | inl r' => match net with [] => Ok (None, [], []) | chunk :: net' => waitline tag r' chunk net' end
  end.

(* imap.c 481-522 *)
Fixpoint string_len (t : tok) : N :=
  let fix all (ks : list tok) : N := match ks with [] => 0 | k :: ks' => 1 + string_len k + all ks' end in
  match t with
  | Tok ty leaf ks =>
      let n := match leaf with Some l => N.of_nat (length l) | None => 0 end in
      match ty with T_untagged => 2 | T_tagged => 15 | T_list | T_sqlist => 2 | T_atom => n | T_string => 20 + n | T_continuation => 2 end + all ks
  end.
(* sprintf "%d" of an int *)
Definition show_z (z : Z) : bytes := if (z <? 0)%Z then 45 :: show_int (Z.to_N (- z)) else show_int (Z.to_N z).
(* imap.c 546-552; char is signed *)
Definition needs_literal (l : bytes) : bool := existsb (fun c => (c <? 32) || (128 <=? c) || (c =? 34) || (126 <? c)) l.
(* imap.c 524-591.  [tag] is the number after the increment; an untagged token runs on into the case
   of the tagged one. *)
Fixpoint format_cmd (tag : Z) (t : tok) : bytes :=
  let fix all (first : bool) (ks : list tok) : bytes :=
    match ks with [] => [] | k :: ks' => (if first then [] else [32]) ++ format_cmd tag k ++ all false ks' end in
  match t with
  | Tok ty leaf ks =>
      let l := match leaf with Some l => l | None => [] end in
      let head := match ty with
        | T_untagged => bs "* t" ++ show_z tag ++ [32]
        | T_tagged => bs "t" ++ show_z tag ++ [32]
        | T_list => [40]
        | T_sqlist => [91]
        | T_atom => l
        | T_string => if needs_literal l then [123] ++ show_z (int_of_u32 (u32 (N.of_nat (length l)))) ++ [43; 125; 13; 10] ++ l else [34] ++ l ++ [34]
        | T_continuation => bs "+ "
        end in
      let close := match ty with T_list => [41] | T_sqlist => [93] | _ => [] end in
      head ++ all true ks ++ close
  end.

(* The folder that was selected last, imap.c 35-39. *)
Record selected := { s_folder : bytes; s_uidvalidity : bytes; s_writable : bool; s_exists : Z }.
(* The connection, imap.c 24-40, with the server at its other end, the bytes that have been read and not
   used, and the pieces that will arrive. *)
Record conn (S : Type) := { k_tag : Z; k_buf : bytes; k_net : list bytes; k_sel : option selected; k_srv : S }.
Arguments k_tag {S} _. Arguments k_buf {S} _. Arguments k_net {S} _. Arguments k_sel {S} _. Arguments k_srv {S} _.
Arguments Build_conn {S} _ _ _ _ _.

Section Server.
Variable S : Type.
(* What the server does on what it is sent, and the pieces of its answer that arrive in time; None if
   writing fails. *)
Variable serve : S -> bytes -> S * option (list bytes).

(* imap.c 691-711: lines up to a tagged one *)
Fixpoint collect (fuel : nat) (tag : Z) (buf : bytes) (net : list bytes) (sofar : list tok) : res (option (list tok) * bytes * list bytes) :=
  match fuel with
  | O => Err E_fuel
  | Datatypes.S fuel' =>
      let! (l, buf', net') := waitline tag reader0 buf net in
      match l with
      | None => Ok (None, buf', net')
      | Some t => if same_type (t_type t) T_tagged then Ok (Some (sofar ++ [t]), buf', net') else collect fuel' tag buf' net' (sofar ++ [t])
      end
  end.
(* imap.c 667-712.  The result is the list of the lines, None for NULL. *)
Definition command (k : conn S) (cmd : tok) : res (option (list tok) * conn S) :=
  let tag := (k_tag k + 1)%Z in
  if (tag <? 2147483648)%Z then
    let (srv, ans) := serve (k_srv k) (format_cmd tag cmd ++ [13; 10]) in
    match ans with
    | None => Ok (None, {| k_tag := tag; k_buf := k_buf k; k_net := k_net k; k_sel := k_sel k; k_srv := srv |})
    | Some out =>
        let net := k_net k ++ out in
        let! (r, buf', net') := collect (1 + length (k_buf k) + length (concat net)) tag (k_buf k) net [] in
        Ok (r, {| k_tag := tag; k_buf := buf'; k_net := net'; k_sel := k_sel k; k_srv := srv |})
    end
  else Err E_ub.
Definition a_atom (s : bytes) : tok := Tok T_atom (Some s) [].
Definition a_string (s : bytes) : tok := Tok T_string (Some s) [].
Definition a_cmd (ks : list tok) : tok := Tok T_tagged None ks.
(* imap.c 830-837; NULL is dereferenced if there was no answer *)
Definition status (r : option (list tok)) : res bytes :=
  match r with
  | None => Err E_ub
  | Some ls => match rev ls with
               | [] => Err E_ub
               | t :: _ => match t_kids t with
                           | u :: _ => Ok (if is_atom u then match t_leaf u with Some l => c_str l | None => [] end else bs "BAD")
                           | [] => Ok (bs "BAD")
                           end
               end
  end.
(* imap.c 839-850 *)
Definition is_trycreate (r : option (list tok)) : res bool :=
  let! s := status r in
  Ok (bytes_eqb s (bs "NO") &&
      match r with
      | Some ls => match rev ls with
                   | t :: _ => match t_kids t with
                               | _ :: u :: _ => same_type (t_type u) T_sqlist && match t_kids u with v :: _ => is_atom v && leaf_is v "TRYCREATE" | [] => false end
                               | _ => false
                               end
                   | [] => false
                   end
      | None => false
      end).
(* atol(): white space, sign, digits; the value is clamped *)
Definition atol (s : bytes) : Z :=
  let t := skip_space s in
  let '(neg, t) := match t with c :: u => if c =? 45 then (true, u) else if c =? 43 then (false, u) else (false, t) | [] => (false, []) end in
  let v := digits_value t 0 in
  if neg : bool then Z.max (- v) (- 2 ^ 63) else Z.min v (2 ^ 63 - 1).
(* imap.c 1272-1302: one line of the answer to SELECT or EXAMINE *)
Definition select_line (acc : option bytes * Z) (l : tok) : option bytes * Z :=
  match t_kids l with
  | a :: rest =>
      if is_atom a then
        if leaf_is a "OK" then
          match rest with
          | b :: _ => if same_type (t_type b) T_sqlist then
                        match t_kids b with
                        | c :: d :: _ => if is_atom c && leaf_is c "UIDVALIDITY" && is_atom d then (match t_leaf d with Some v => Some (c_str v) | None => None end, snd acc) else acc
                        | _ => acc
                        end
                      else acc
          | [] => acc
          end
        else
          match rest with
          | b :: _ => if is_atom b && leaf_is b "EXISTS" then (fst acc, atol (match t_leaf a with Some v => c_str v | None => [] end)) else acc
          | [] => acc
          end
      else acc
  | [] => acc
  end.
(* imap.c 1224-1323: the uidvalidity of the folder and the number of its messages *)
Definition imap_select (k : conn S) (folder : bytes) (need_write : bool) : res (option (bytes * Z) * conn S) :=
  match match k_sel k with
        | Some s => if bytes_eqb (s_folder s) folder && (negb need_write || s_writable s) then Some (s_uidvalidity s, s_exists s) else None
        | None => None
        end with
  | Some x => Ok (Some x, k)
  | None =>
      let! (r, k') := command k (a_cmd [a_atom (if need_write then bs "SELECT" else bs "EXAMINE"); a_string folder]) in
      match r with
      | None => Ok (None, k')
      | Some ls =>
          let! st := status r in
          if negb (bytes_eqb st (bs "OK")) then Ok (None, k')
          else
            let (u, ex) := fold_left select_line (removelast ls) (None, 0%Z) in
            match u with
            | None => Ok (None, k')
            | Some v => Ok (Some (v, ex), {| k_tag := k_tag k'; k_buf := k_buf k'; k_net := k_net k';
                                             k_sel := Some {| s_folder := folder; s_uidvalidity := v; s_writable := need_write; s_exists := ex |}; k_srv := k_srv k' |})
            end
      end
  end.

(* imapinterface.c 104-114, 219-229: the list of a FETCH line.  Null pointers are dereferenced if the
   line ends too early. *)
Definition fetch_list (l : tok) : res (option (list tok)) :=
  match t_kids l with
  | [] => Ok None
  | a :: rest =>
      if negb (is_atom a) then Ok None
      else match rest with
           | [] => Err E_ub
           | b :: rest' =>
               if negb (is_atom b && leaf_is b "FETCH") then Ok None
               else match rest' with
                    | [] => Err E_ub
                    | c :: _ => Ok (if same_type (t_type c) T_list then Some (t_kids c) else None)
                    end
           end
  end.
(* imapinterface.c 115-131: uid and deleted *)
Fixpoint scan_items (ks : list tok) (uid : option bytes) (deleted : bool) : option bytes * bool :=
  match ks with
  | a :: ((b :: ks'') as ks') =>
      if negb (is_atom a) then scan_items ks' uid deleted
      else if leaf_is a "UID" then scan_items ks'' (if is_atom b then match t_leaf b with Some v => Some (c_str v) | None => uid end else uid) deleted
      else if leaf_is a "FLAGS" then
        scan_items ks'' uid (deleted || same_type (t_type b) T_list && existsb (fun f => is_atom f && leaf_is f "\Deleted") (t_kids b))
      else scan_items ks' uid deleted
  | _ => (uid, deleted)
  end.
(* imapinterface.c 51-67: sprintf "%s:%s:%s" *)
Definition pseudopath (folder uidvalidity uid : bytes) : bytes := uidvalidity ++ [58] ++ uid ++ [58] ++ folder.
Fixpoint scan_lines (folder uidvalidity : bytes) (ls : list tok) : res (list bytes) :=
  match ls with
  | [] => Ok []
  | l :: ls' =>
      let! o := fetch_list l in
      let! rest := scan_lines folder uidvalidity ls' in
      Ok (match o with
          | Some ks => match scan_items ks None false with
                       | (Some uid, false) => pseudopath folder uidvalidity uid :: rest
                       | _ => rest
                       end
          | None => rest
          end)
  end.
(* imapinterface.c 69-137 *)
Definition scan_folder (k : conn S) (folder : bytes) : res (list bytes * conn S) :=
  let! (u, k1) := imap_select k folder false in
  match u with
  | None => Ok ([], k1)
  | Some (uidvalidity, exists_) =>
      if (exists_ <? 1)%Z then Ok ([], k1)
      else
        let! (r, k2) := command k1 (a_cmd [a_atom (bs "UID"); a_atom (bs "FETCH"); a_atom (bs "1:*"); a_atom (bs "FLAGS")]) in
        match r with
        | None => Ok ([], k2)
        | Some ls =>
            let! st := status r in
            if negb (bytes_eqb st (bs "OK")) then Ok ([], k2)
            else let! ps := scan_lines folder uidvalidity (removelast ls) in Ok (ps, k2)
        end
  end.
(* imapinterface.c 139-157: the folders are split and the omitted ones left out elsewhere (M_Paths) *)
Fixpoint build_imap_message_list (k : conn S) (folders : list bytes) : res (list bytes * conn S) :=
  match folders with
  | [] => Ok ([], k)
  | f :: fs => let! (ps, k1) := scan_folder k f in let! (qs, k2) := build_imap_message_list k1 fs in Ok (ps ++ qs, k2)
  end.

(* strchr(s, ':') *)
Fixpoint at_colon (s : bytes) : option (bytes * bytes) :=
  match s with
  | [] => None
  | c :: s' => if c =? 58 then Some ([], s') else match at_colon s' with Some (a, b) => Some (c :: a, b) | None => None end
  end.
(* imapinterface.c 231-246: got_uid and got_raw *)
Fixpoint fetch_items (ks : list tok) (uid raw : option bytes) : option bytes * option bytes :=
  match ks with
  | a :: ((b :: ks'') as ks') =>
      if negb (is_atom a) then fetch_items ks' uid raw
      else if leaf_is a "UID" then fetch_items ks'' (if is_atom b then t_leaf b else uid) raw
      else if leaf_is a "BODY[]" then fetch_items ks'' uid (if same_type (t_type b) T_string then t_leaf b else raw)
      else fetch_items ks' uid raw
  | _ => (uid, raw)
  end.
Fixpoint fetch_lines (uid : bytes) (ls : list tok) : res (option bytes) :=
  match ls with
  | [] => Ok None
  | l :: ls' =>
      let! o := fetch_list l in
      match o with
      | Some ks => match fetch_items ks None None with
                   | (Some u, Some raw) => if bytes_eqb u uid then Ok (Some raw) else fetch_lines uid ls'
                   | _ => fetch_lines uid ls'
                   end
      | None => fetch_lines uid ls'
      end
  end.
(* imapinterface.c 159-256: the text given to the callback, if it is called *)
Definition imap_fetch_message_raw (k : conn S) (path : bytes) : res (option bytes * conn S) :=
  match at_colon path with
  | None => Ok (None, k)
  | Some (uidvalidity, r1) =>
      match at_colon r1 with
      | None => Ok (None, k)
      | Some (uid, folder) =>
          let! (u, k1) := imap_select k folder false in
          match u with
          | None => Ok (None, k1)
          | Some (actual, _) =>
              if negb (bytes_eqb actual uidvalidity) then Ok (None, k1)
              else
                let! (r, k2) := command k1 (a_cmd [a_atom (bs "UID"); a_atom (bs "FETCH"); a_atom uid; a_atom (bs "BODY.PEEK[]")]) in
                match r with
                | None => Ok (None, k2)
                | Some ls =>
                    let! st := status r in
                    if negb (bytes_eqb st (bs "OK")) then Ok (None, k2)
                    else let! raw := fetch_lines uid (removelast ls) in Ok (raw, k2)
                end
          end
      end
  end.
(* imapinterface.c 258-282: s.r is not initialised, and set by the callback only *)
Definition make_rfc822_from_imap (isspc : N -> bool) (mktime : Z -> Z -> Z -> Z) (k : conn S) (path : bytes) : res (option rfc822 * conn S) :=
  let! (raw, k1) := imap_fetch_message_raw k path in
  match raw with
  | Some t => let! (m, _) := data_to_rfc822 isspc mktime t (length t) in Ok (m, k1)
  | None => Err E_ub
  end.
(* imapinterface.c 284-307; neither answer is looked at *)
Definition imap_clear_folder (k : conn S) (folder : bytes) : res (conn S) :=
  let! (u, k1) := imap_select k folder true in
  match u with
  | None => Ok k1
  | Some _ =>
      let! (_, k2) := command k1 (a_cmd [a_atom (bs "STORE"); a_atom (bs "1:*"); a_atom (bs "+FLAGS"); a_atom (bs "\Deleted")]) in
      let! (_, k3) := command k2 (a_cmd [a_atom (bs "EXPUNGE")]) in
      Ok k3
  end.
(* imapinterface.c 309-323 *)
Definition create_folder (k : conn S) (folder : bytes) : res (conn S) :=
  let! (_, k1) := command k (a_cmd [a_atom (bs "CREATE"); a_string folder]) in Ok k1.
(* imapinterface.c 363-378, 407-421: the command, and again after creating the folder *)
Definition try_twice (k : conn S) (cmd : tok) (folder : bytes) : res (conn S) :=
  let! (r, k1) := command k cmd in
  let! tc := is_trycreate r in
  if tc then
    let! k2 := create_folder k1 folder in
    let! (r', k3) := command k2 cmd in
    let! _ := status r' in Ok k3
  else let! _ := status r in Ok k1.
(* imapinterface.c 325-379 *)
Definition imap_copy_message (k : conn S) (path to_folder : bytes) : res (conn S) :=
  match at_colon path with
  | None => Ok k
  | Some (uidvalidity, r1) =>
      match at_colon r1 with
      | None => Ok k
      | Some (uid, folder) =>
          let! (u, k1) := imap_select k folder false in
          match u with
          | None => Ok k1
          | Some (actual, _) =>
              if negb (bytes_eqb actual uidvalidity) then Ok k1
              else try_twice k1 (a_cmd [a_atom (bs "UID"); a_atom (bs "COPY"); a_atom uid; a_string to_folder]) to_folder
          end
      end
  end.
(* imapinterface.c 381-422 *)
Definition imap_append_new_message (k : conn S) (folder data : bytes) (seen answered flagged : bool) : res (conn S) :=
  let! (u, k1) := imap_select k folder true in
  match u with
  | None => Ok k1
  | Some _ =>
      let flags := (if seen then [a_atom (bs "\Seen")] else []) ++ (if answered then [a_atom (bs "\Answered")] else []) ++ (if flagged then [a_atom (bs "\Flagged")] else []) in
      try_twice k1 (a_cmd [a_atom (bs "APPEND"); a_string folder; Tok T_list None flags; a_string data]) folder
  end.
End Server.
