(* Structured header values on the tables. *)
From Verif Require Import Base M_Charclass M_Dfasyn M_Compdfa M_Blocks M_Files M_Tables S_Dfasyn S_Nvp L_Dfasyn2 L_Nvp4 L_Tie11.
From Verif Require M_Nvp.

Theorem values_on_tables fuel stack qsort sc isspc pfx head cs t es : sorts qsort -> dfasyn_text fuel stack qsort false nvp_text = Ok sc ->
  (forall c, blank c -> isspc c = true) -> (forall c, name_char c -> isspc c = false) -> Forall (fun c => (c < 256)%N) (head ++ t) -> map tolower head = pfx -> listed cs t -> stands cs [] es ->
  make_nvp (next_state_uncompressed (sc_nt sc) (sc_trans sc)) sc isspc (head ++ t) pfx = Ok (Some es).
Proof.
  intros Q H B C F P L T. rewrite (nvp_tables _ _ _ _ Q H) by exact F. apply Forall_app in F. destruct F as (F & _). exact (reads_ok _ _ _ _ _ _ B C F P L T).
Qed.
Theorem safe_on_tables fuel stack qsort sc isspc s pfx : sorts qsort -> dfasyn_text fuel stack qsort false nvp_text = Ok sc -> (forall c, name_char c -> isspc c = false) ->
  Forall (fun c => (c < 256)%N) s -> exists r, make_nvp (next_state_uncompressed (sc_nt sc) (sc_trans sc)) sc isspc s pfx = Ok r.
Proof. intros Q H C F. destruct (make_safe isspc C s pfx F) as (r & E). exists r. rewrite (nvp_tables _ _ _ _ Q H) by exact F. exact E. Qed.
Lemma ex_values : exists fuel stack sc, sorts isort /\ dfasyn_text fuel stack isort false nvp_text = Ok sc /\ listed ex_list ex_text /\
  make_nvp (next_state_uncompressed (sc_nt sc) (sc_trans sc)) sc ascii_space (bs "Content-Type:" ++ ex_text) (bs "content-type:") =
    Ok (Some [M_Nvp.Entry M_Nvp.NVP_MAJORMINOR (bs "multipart") (bs "mixed"); M_Nvp.Entry M_Nvp.NVP_NAMEVALUE (bs "boundary") (bs "a b;c"); M_Nvp.Entry M_Nvp.NVP_NAMEVALUE (bs "name") (bs "long name")]).
Proof.
  destruct nvp_tables_made as (d0 & f0 & H). destruct (H d0 f0 isort (le_n _) (le_n _) isort_sorts) as (sc & E). exists f0, d0, sc. split; [exact isort_sorts|]. split; [exact E|]. split; [exact ex_listed|].
  rewrite (nvp_tables _ _ _ _ isort_sorts E); [reflexivity|]. apply (proj2 (Forall_forall _ _)); intros c J; cbn in J; repeat (destruct J as [<-|J]; [reflexivity|]); destruct J.
Qed.
