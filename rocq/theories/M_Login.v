(* imap.c 858-1006 and 1046-1235: how mairix introduces itself to an IMAP server, with and without USE_OPENSSL. *)
From Verif Require Import Base M_Imap.
Local Open Scope N_scope.

(* strcasecmp(a, b) == 0 *)
Definition same_letters (a b : bytes) : bool := bytes_eqb (map tolower a) (map tolower b).
(* imap.c 957-991: does the common name of the certificate suit?  server is NULL if a pipe alone is configured.
   X509_NAME_get_text_by_NID gives at most 255 bytes, and they are used as a C string. *)
Definition name_suits (server : option bytes) (name : bytes) : bool :=
  let buf := c_str (firstn 255 name) in
  match server with
  | None => true
  | Some s =>
      same_letters buf s ||
      match buf with
      | c :: rest => (c =? 42) && (length rest <=? length s)%nat && same_letters rest (skipn (length s - length rest) s)
      | [] => false
      end
  end.
Inductive tls_result := TLS_FAILED_PROCEED | TLS_FAILED | TLS_FAILED_CERT | TLS_SUCCESS.
Inductive login_result := L_error | L_denied | L_ok.

(* imap.c 1046-1058: the list after CAPABILITY in an untagged line; no elements stand for NULL.  A line
   without a word makes it dereference NULL. *)
Fixpoint caps_untagged (ls : list tok) : res (list tok) :=
  match ls with
  | [] => Ok []
  | l :: ls' =>
      if same_type (t_type l) T_untagged then
        match t_kids l with
        | [] => Err E_ub
        | a :: rest => if is_atom a && leaf_is a "CAPABILITY" then Ok rest else caps_untagged ls'
        end
      else caps_untagged ls'
  end.
(* imap.c 1080-1086: the list in square brackets after the first word *)
Definition caps_bracket (l : tok) : option (list tok) :=
  match t_kids l with
  | _ :: b :: _ => if same_type (t_type b) T_sqlist then match t_kids b with c :: rest => if leaf_is c "CAPABILITY" then Some rest else None | [] => None end else None
  | _ => None
  end.
(* imap.c 1095-1117 have_capability, need_capability *)
Definition has_cap (l : list tok) (cap : string) : bool := existsb (fun t => leaf_is t cap) l.

Section Login.
(* Compiled with USE_OPENSSL? *)
Variable use_ssl : bool.
Variable S : Type.
(* What the server does on what it is sent, in the clear or by way of TLS, as in M_Imap. *)
Variable serve : bool -> S -> bytes -> S * option (list bytes).
(* SSL_connect, given what has arrived and has not been read: None if it fails or takes too long; else
   whether the certificate is found valid, and the common name in it if there is one. *)
Variable handshake : S -> list bytes -> S * option (bool * option bytes).

(* imap.c 1060-1073 *)
Definition ask_for_capabilities (tls : bool) (k : conn S) : res (option (list tok) * conn S) := command S (serve tls) k (a_cmd [a_atom (bs "CAPABILITY")]).
(* what imap.c 1046-1058 makes of that; NULL is dereferenced if there was no answer *)
Definition asked (tls : bool) (k : conn S) : res (list tok * conn S) :=
  let! (r, k') := ask_for_capabilities tls k in
  match r with None => Err E_ub | Some ls => let! c := caps_untagged ls in Ok (c, k') end.
(* imap.c 1075-1093 *)
Definition caps_from (tls : bool) (k : conn S) (l : tok) : res (list tok * conn S) :=
  match caps_bracket l with Some c => Ok (c, k) | None => asked tls k end.
(* imap.c 858-1005.  SSL_new succeeds.  What has been read into ll->buffer stays there. *)
Definition starttls (k : conn S) (server : option bytes) : res (tls_result * conn S) :=
  let! (r, k1) := command S (serve false) k (a_cmd [a_atom (bs "STARTTLS")]) in
  let! st := status r in
  if negb (bytes_eqb st (bs "OK")) then Ok (TLS_FAILED_PROCEED, k1)
  else
    let (srv, h) := handshake (k_srv k1) (k_net k1) in
    let k2 := {| k_tag := k_tag k1; k_buf := k_buf k1; k_net := []; k_sel := k_sel k1; k_srv := srv |} in
    Ok (match h with
        | None => TLS_FAILED
        | Some (true, Some name) => if name_suits server name then TLS_SUCCESS else TLS_FAILED_CERT
        | Some _ => TLS_FAILED_CERT
        end, k2).
(* imap.c 1219-1221, at logged_in *)
Definition logged_in (caps : list tok) : login_result := if has_cap caps "LITERAL+" then L_ok else L_error.
(* imap.c 1188-1234 *)
Definition log_in (tls : bool) (k : conn S) (caps : list tok) (user password : option bytes) : res (login_result * conn S) :=
  if negb (has_cap caps "LITERAL+") then Ok (L_error, k)
  else match user, password with
       | Some u, Some p =>
           if negb (has_cap caps "AUTH=PLAIN") then Ok (L_error, k)
           else
             let! (r, k1) := command S (serve tls) k (a_cmd [a_atom (bs "LOGIN"); a_string u; a_string p]) in
             let! st := status r in
             if bytes_eqb st (bs "OK") then
               match r with
               | None => Err E_ub
               | Some ls =>
                   let! (c, k2) := caps_from tls k1 (last ls (a_cmd [])) in
                   Ok (match c with [] => L_error | _ => logged_in c end, k2)
               end
             else if bytes_eqb st (bs "NO") then Ok (L_denied, k1)
             else Ok (L_error, k1)
       | _, _ => Ok (L_denied, k)
       end.
(* imap.c 1119-1235 imap_login; user and password are C strings (imapinterface.c 36) *)
Definition imap_login (k0 : conn S) (user password server : option bytes) : res (login_result * conn S) :=
  let! (l, buf, net) := waitline (k_tag k0) reader0 (k_buf k0) (k_net k0) in
  let k := {| k_tag := k_tag k0; k_buf := buf; k_net := net; k_sel := k_sel k0; k_srv := k_srv k0 |} in
  match l with
  | None => Ok (L_error, k)
  | Some t =>
      match t_kids t with
      | [] => Ok (L_error, k)
      | a :: _ =>
          if negb (is_atom a) then Ok (L_error, k)
          else if leaf_is a "BYE" then Ok (L_error, k)
          else if leaf_is a "PREAUTH" then
            let! (c, k1) := caps_from false k t in
            Ok (match c with [] => L_error | _ => logged_in c end, k1)
          else if negb (leaf_is a "OK") then Ok (L_error, k)
          else
            let! (c, k1) := caps_from false k t in
            match c with
            | [] => Ok (L_error, k1)
            | _ =>
                if use_ssl && has_cap c "STARTTLS" then
                  let! (o, k2) := starttls k1 server in
                  match o with
                  | TLS_FAILED_PROCEED => log_in false k2 c user password
                  | TLS_FAILED | TLS_FAILED_CERT => Ok (L_error, k2)
                  | TLS_SUCCESS =>
                      let! (c', k3) := asked true k2 in
                      match c' with [] => Ok (L_error, k3) | _ => log_in true k3 c' user password end
                  end
                else log_in false k1 c user password
            end
      end
  end.
End Login.
(* imap.c 94-101: a new connection, on which something may have arrived *)
Definition new_conn {S} (srv : S) (net : list bytes) : conn S := {| k_tag := -1; k_buf := []; k_net := net; k_sel := None; k_srv := srv |}.
