(* C77: structured header values.  C78: spellings the RFCs allow. *)
From Verif Require Import Base M_Nvp S_Nvp L_Nvp4.
Local Open Scope N_scope.

(* A list of components, however it is spelled, gives the entries it stands for. *)
Theorem C77_reads : forall isspc pfx head cs t es, (forall c, blank c -> isspc c = true) -> (forall c, name_char c -> isspc c = false) ->
  Forall (fun c => c < 256) head -> map tolower head = pfx -> listed cs t -> stands cs [] es -> make_nvp isspc (head ++ t) pfx = Ok (Some es).
Proof. exact reads_ok. Qed.
Print Assumptions C77_reads.
(* There always are such entries. *)
Theorem C77_some : forall cs es, exists fs, stands cs es fs.
Proof. exact stands_some. Qed.
Print Assumptions C77_some.
(* The type is the first component, *)
Theorem C77_type : forall a b cs es, stands (Type_of a b :: cs) [] es -> nvp_major es = Some a /\ nvp_minor es = Some b.
Proof. exact type_ok. Qed.
Print Assumptions C77_type.
Theorem C77_word : forall n cs es, stands (Word n :: cs) [] es -> nvp_major es = None /\ nvp_first es = Some n.
Proof. exact word_ok. Qed.
Print Assumptions C77_word.
(* a parameter is found under its name in whatever case, *)
Theorem C77_param : forall pre n v post es k, stands (pre ++ Param n v :: post) [] es -> same_name n k ->
  (forall c, In c pre -> ~ about k c) -> (forall m u, In (Piece m u) post -> ~ same_name m k) -> nvp_lookupcase es k = Some v.
Proof. exact found_ok. Qed.
Print Assumptions C77_param.
(* and the pieces of a value that was split are put together. *)
Theorem C77_pieces : forall cs n es, stands cs [] es -> (forall v, ~ In (Param n v) cs) -> pieces n cs <> [] -> nvp_lookup es n = Some (concat (pieces n cs)).
Proof. exact pieces_joined. Qed.
Print Assumptions C77_pieces.
(* No value, however malformed, makes the parser go wrong. *)
Theorem C77_safe : forall isspc, (forall c, name_char c -> isspc c = false) -> forall s pfx, Forall (fun c => c < 256) s -> exists r, make_nvp isspc s pfx = Ok r.
Proof. exact make_safe. Qed.
Print Assumptions C77_safe.
Example C77_example : (forall c, blank c -> ascii_space c = true) /\ (forall c, name_char c -> ascii_space c = false) /\ listed ex_list ex_text /\
  make_nvp ascii_space (bs "Content-Type:" ++ ex_text) (bs "content-type:") =
    Ok (Some [Entry NVP_MAJORMINOR (bs "multipart") (bs "mixed"); Entry NVP_NAMEVALUE (bs "boundary") (bs "a b;c"); Entry NVP_NAMEVALUE (bs "name") (bs "long name")]).
Proof. split; [exact (proj1 ascii_space_ok)|]. split; [exact (proj2 ascii_space_ok)|]. split; [exact ex_listed|]. vm_compute. reflexivity. Qed.

(* Allowed by RFC 2045, yet not found: white space before the equals sign, *)
Theorem C78_blank_refuted : exists n v t es, rfc_param n v t /\ make_nvp ascii_space (type_value t) (bs "content-type:") = Ok (Some es) /\ nvp_lookupcase es n = None.
Proof. exact blank_refuted. Qed.
Print Assumptions C78_blank_refuted.
(* read wrongly: an escaped quote, *)
Theorem C78_escape_refuted : exists n v t es u, rfc_param n v t /\ make_nvp ascii_space (type_value t) (bs "content-type:") = Ok (Some es) /\ nvp_lookupcase es n = Some u /\ u <> v.
Proof. exact escape_refuted. Qed.
Print Assumptions C78_escape_refuted.
(* and making the whole value unreadable: nothing between the quotes. *)
Theorem C78_empty_refuted : exists n v t, rfc_param n v t /\ make_nvp ascii_space (type_value t) (bs "content-type:") = Ok None.
Proof. exact empty_refuted. Qed.
Print Assumptions C78_empty_refuted.
