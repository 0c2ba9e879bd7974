(* Kinds of dates on the tables. *)
From Verif Require Import Base M_Charclass M_Dfasyn M_Compdfa M_Blocks M_Files M_Tables S_Dfasyn S_Tables L_Dfasyn2 L_Kinds L_Tie8.
From Verif Require M_Dates.

Theorem kinds_on_tables fuel stack qsort sc s : sorts qsort -> dfasyn_text fuel stack qsort false datescan_text = Ok sc -> Forall (fun c => (c < 256)%N) s ->
  exists k, discover_type (next_state_uncompressed (sc_nt sc) (sc_trans sc)) sc s = Ok (kind_name k) /\ forall t, k = Some t <-> reads_as s t.
Proof. intros Q H S. exists (M_Dates.discover_type s). split; [exact (date_kinds _ _ _ _ _ Q H S)|]. intros t. apply kinds_ok. Qed.
Theorem one_kind_only s t u : reads_as s t -> reads_as s u -> t = u.
Proof. intros A B. apply kinds_ok in A, B. congruence. Qed.
Lemma ex_kinds : exists fuel stack sc, sorts isort /\ dfasyn_text fuel stack isort false datescan_text = Ok sc /\
  discover_type (next_state_uncompressed (sc_nt sc) (sc_trans sc)) sc (bs "17mar2003") = Ok (bs "DS_DMY") /\ discover_type (next_state_uncompressed (sc_nt sc) (sc_trans sc)) sc (bs "10000d") = Ok (bs "DS_SCALED") /\
  discover_type (next_state_uncompressed (sc_nt sc) (sc_trans sc)) sc (bs "mar17x") = Ok (bs "DS_FAILURE").
Proof.
  destruct datescan_tables as (d0 & f0 & H). destruct (H d0 f0 isort (le_n _) (le_n _) isort_sorts) as (sc & E). exists f0, d0, sc. split; [exact isort_sorts|]. split; [exact E|].
  repeat split; (rewrite (date_kinds _ _ _ _ _ isort_sorts E); [reflexivity|repeat constructor]).
Qed.
