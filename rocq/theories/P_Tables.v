(* The functions of mairix that use generated scanners, on the tables that dfasyn makes from the .nfa files. *)
From Verif Require Import Base M_Charclass M_Dfasyn M_Compdfa M_Blocks M_Files M_Tables S_Dfasyn S_From S_Nvp S_Tables L_Dfasyn2 L_Tie5 L_Tie8 L_Tie9 L_Tie11 L_Tie12.
From Verif Require M_Nvp L_From4 L_Nvp4.

(* C105: on the tables made from fromcheck.nfa, a line is taken to begin a message exactly if it reads as one should,
   and no table is read outside its bounds. *)
Theorem C105_separators : forall fuel stack qsort sc text,
  sorts qsort -> dfasyn_text fuel stack qsort false fromcheck_text = Ok sc -> Forall (fun c => (c < 256)%N) text ->
  exists b, looks_like_from_separator (next_state_uncompressed (sc_nt sc) (sc_trans sc)) sc text = Ok b /\ (b = true <-> begins_message text).
Proof. exact separators. Qed.
Print Assumptions C105_separators.
(* dfasyn makes these tables, given room on the stack. *)
Theorem C105_made : exists d0 f0, forall stack fuel qsort, d0 <= stack -> f0 <= fuel -> sorts qsort -> exists sc, dfasyn_text fuel stack qsort false fromcheck_text = Ok sc.
Proof. exact fromcheck_tables. Qed.
Print Assumptions C105_made.
Example ex_C105 : exists fuel stack sc, sorts isort /\ dfasyn_text fuel stack isort false fromcheck_text = Ok sc /\
  looks_like_from_separator (next_state_uncompressed (sc_nt sc) (sc_trans sc)) sc (bs "joe@example.org Mon Mar 15 14:36:40 2021") = Ok true /\
  looks_like_from_separator (next_state_uncompressed (sc_nt sc) (sc_trans sc)) sc (bs "now on we meet on Mon Mar 15") = Ok false.
Proof. exact ex_tables. Qed.

(* C106: on the tables made from datescan.nfa, the kind of a date is discovered, whatever is given for one. *)
Theorem C106_kinds : forall fuel stack qsort sc s,
  sorts qsort -> dfasyn_text fuel stack qsort false datescan_text = Ok sc -> Forall (fun c => (c < 256)%N) s ->
  exists k, discover_type (next_state_uncompressed (sc_nt sc) (sc_trans sc)) sc s = Ok (kind_name k) /\ forall t, k = Some t <-> reads_as s t.
Proof. exact kinds_on_tables. Qed.
Print Assumptions C106_kinds.
Theorem C106_one_kind : forall s t u, reads_as s t -> reads_as s u -> t = u.
Proof. exact one_kind_only. Qed.
Print Assumptions C106_one_kind.
Theorem C106_made : exists d0 f0, forall stack fuel qsort, d0 <= stack -> f0 <= fuel -> sorts qsort -> exists sc, dfasyn_text fuel stack qsort false datescan_text = Ok sc.
Proof. exact datescan_tables. Qed.
Print Assumptions C106_made.
Example ex_C106 : exists fuel stack sc, sorts isort /\ dfasyn_text fuel stack isort false datescan_text = Ok sc /\
  discover_type (next_state_uncompressed (sc_nt sc) (sc_trans sc)) sc (bs "17mar2003") = Ok (bs "DS_DMY") /\ discover_type (next_state_uncompressed (sc_nt sc) (sc_trans sc)) sc (bs "10000d") = Ok (bs "DS_SCALED") /\
  discover_type (next_state_uncompressed (sc_nt sc) (sc_trans sc)) sc (bs "mar17x") = Ok (bs "DS_FAILURE").
Proof. exact ex_kinds. Qed.

(* C107: on the tables made from nvp.nfa, a list of components gives the entries it stands for, *)
Theorem C107_reads : forall fuel stack qsort sc isspc pfx head cs t es,
  sorts qsort -> dfasyn_text fuel stack qsort false nvp_text = Ok sc -> (forall c, blank c -> isspc c = true) -> (forall c, name_char c -> isspc c = false) ->
  Forall (fun c => (c < 256)%N) (head ++ t) -> map tolower head = pfx -> listed cs t -> stands cs [] es ->
  make_nvp (next_state_uncompressed (sc_nt sc) (sc_trans sc)) sc isspc (head ++ t) pfx = Ok (Some es).
Proof. exact values_on_tables. Qed.
Print Assumptions C107_reads.
(* no value whatever makes the parser go wrong, *)
Theorem C107_safe : forall fuel stack qsort sc isspc s pfx,
  sorts qsort -> dfasyn_text fuel stack qsort false nvp_text = Ok sc -> (forall c, name_char c -> isspc c = false) -> Forall (fun c => (c < 256)%N) s ->
  exists r, make_nvp (next_state_uncompressed (sc_nt sc) (sc_trans sc)) sc isspc s pfx = Ok r.
Proof. exact safe_on_tables. Qed.
Print Assumptions C107_safe.
(* and the tables do what the scanner written by hand does, so that all of C77 and C78 is true of them. *)
Theorem C107_agrees : forall fuel stack qsort sc,
  sorts qsort -> dfasyn_text fuel stack qsort false nvp_text = Ok sc -> forall isspc s pfx, Forall (fun c => (c < 256)%N) s ->
  make_nvp (next_state_uncompressed (sc_nt sc) (sc_trans sc)) sc isspc s pfx = M_Nvp.make_nvp isspc s pfx.
Proof. exact nvp_tables. Qed.
Print Assumptions C107_agrees.
Theorem C107_made : exists d0 f0, forall stack fuel qsort, d0 <= stack -> f0 <= fuel -> sorts qsort -> exists sc, dfasyn_text fuel stack qsort false nvp_text = Ok sc.
Proof. exact nvp_tables_made. Qed.
Print Assumptions C107_made.
Example ex_C107 : exists fuel stack sc, sorts isort /\ dfasyn_text fuel stack isort false nvp_text = Ok sc /\ listed L_Nvp4.ex_list L_Nvp4.ex_text /\
  make_nvp (next_state_uncompressed (sc_nt sc) (sc_trans sc)) sc L_Nvp4.ascii_space (bs "Content-Type:" ++ L_Nvp4.ex_text) (bs "content-type:") =
    Ok (Some [M_Nvp.Entry M_Nvp.NVP_MAJORMINOR (bs "multipart") (bs "mixed"); M_Nvp.Entry M_Nvp.NVP_NAMEVALUE (bs "boundary") (bs "a b;c"); M_Nvp.Entry M_Nvp.NVP_NAMEVALUE (bs "name") (bs "long name")]).
Proof. exact ex_values. Qed.
