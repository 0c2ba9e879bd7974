(* One indexing session: it ends well and leaves a good index. *)
From Coq Require Import Permutation Sorted.
From Verif Require Import Base M_Encoding M_TokTable S_TokTable M_DbFile S_DbFile M_Search S_Search M_Thread M_Purge S_Purge M_Tokens S_Tokens M_Mbox S_Mbox M_Update S_Update M_Session S_Session
  L_TokTable2 L_DbFile5 L_DbFile6 L_Purge L_Purge2 L_Output3 L_Search6 L_Thread L_Update L_Update2 L_Update3 L_Update4 L_Update5 L_Update6 L_Update7 L_Update8 L_Update9 L_Update10 L_Update11 L_Update12 L_Update13 L_Update15 L_Session.
From Verif Require M_Paths.
Local Open Scope N_scope.

Lemma run_few W fast symlinks fnd paths db ch db' : runnable W symlinks fnd paths db -> index_run W fast symlinks fnd paths db = Ok (ch, db') -> n_msgs db' <= 63 * 2 ^ 24.
Proof.
  intros RI E. open RI E E' RA EC. pose proof (ra_steps _ _ _ _ _ _ _ _ _ _ _ _ _ _ _ RA) as ST. destruct (ra_same _ _ _ _ _ _ _ _ _ _ _ _ _ _ _ RA) as (_ & _ & _ & _ & F). apply Forall2_len in F.
  pose proof (Forall2_len _ _ _ (st_old _ _ _ _ _ _ _ _ _ _ _ _ ST)) as L1. pose proof (st_count _ _ _ _ _ _ _ _ _ _ _ _ ST) as L2.
  pose proof (new_entries_le W (qsort message_compare fnd) in_db) as L3. destruct (sorted_paths fnd) as (P & _).
  rewrite <- (st_added _ _ _ _ _ _ _ _ _ _ _ _ ST), <- (Permutation_length P) in L3. pose proof (ra_few _ _ _ _ _ _ _ _ _ _ _ _ _ _ _ RA) as FEW.
  unfold n_msgs in *. rewrite <- F, (st_msgs _ _ _ _ _ _ _ _ _ _ _ _ ST), !app_length, map_length. lia.
Qed.

Lemma new_good h key : word key -> good h (new_database key).
Proof. intros K. destruct (new_ok h key K) as (A & B & C). constructor; auto; [intros m fi mi mb []|intros X; discriminate X]. Qed.
Lemma good_checked s h db : good h db -> M_Session.checked s db = Ok tt.
Proof. intros G. unfold M_Session.checked. destruct (s_checks s); [|reflexivity]. destruct (once_paths db (gd_once _ _ G)). eapply integrity_accepts; eauto. apply (gd_ok _ _ G). Qed.

(* What the database file holds between sessions. *)
Definition stored (h : N -> bytes -> N) (file : option bytes) : Prop :=
  forall F, file = Some F -> exists db old, write_database db old = Ok F /\ good h db /\ file_len db < 2 ^ 31.

Lemma get_good s file : fit s file -> stored (w_hash (s_world s)) file -> exists db, get_database s file = Ok db /\ good (w_hash (s_world s)) db.
Proof.
  intros FI ST. unfold get_database. destruct file as [F|]; [|exists (new_database (s_key s)); split; [reflexivity|apply new_good, FI]].
  destruct (ST F eq_refl) as (db & old & EW & G & L).
  destruct (load_good (w_hash (s_world s)) (fun _ => 0) 0 db old F G L EW) as (d0 & E0 & S0 & _); [intros; lia|now cbv|].
  assert (EN : n_msgs d0 = n_msgs db) by (unfold n_msgs; destruct S0 as (_ & M & _); apply Forall2_len in M; congruence).
  destruct (load_good (w_hash (s_world s)) (s_index s) (s_current s) db old F G L EW) as (d1 & E1 & S1 & G1); [rewrite <- EN; exact (fi_index _ _ FI F d0 eq_refl E0)|apply FI|].
  rewrite E1. cbn [bind]. rewrite (good_checked s _ _ G1). cbn [bind]. eauto.
Qed.
Lemma fit_runnable s file db : fit s file -> get_database s file = Ok db -> good (w_hash (s_world s)) db -> runnable (s_world s) (s_symlinks s) (s_found s) (s_paths s) db.
Proof. intros FI E G. constructor; try apply FI; try apply G. intros boxes EB. now apply (fi_few _ _ FI). Qed.

(* The steps of a session. *)
Record went (s : session) (fuel : nat) (file : option bytes) (db0 db1 db2 : database) (c1 c2 : bool) : Prop := {
  we_get : get_database s file = Ok db0;
  we_good0 : good (w_hash (s_world s)) db0;
  we_run : runnable (s_world s) (s_symlinks s) (s_found s) (s_paths s) db0;
  we_index : index_run (s_world s) (s_fast s) (s_symlinks s) (s_found s) (s_paths s) db0 = Ok (c1, db1);
  we_good1 : good (w_hash (s_world s)) db1;
  we_purge : (s_purge s = false /\ c2 = false /\ db2 = db1) \/ (s_purge s = true /\ purged db1 db2 /\ c2 = negb (forallb is_live (msgs db1)));
  we_good2 : good (w_hash (s_world s)) db2;
  we_update : update_index s fuel file = Ok (c1 || c2, db2) }.
Lemma run_good s file db0 : fit s file -> get_database s file = Ok db0 -> good (w_hash (s_world s)) db0 -> exists c1 db1,
  index_run (s_world s) (s_fast s) (s_symlinks s) (s_found s) (s_paths s) db0 = Ok (c1, db1) /\ good (w_hash (s_world s)) db1.
Proof.
  intros FI E0 G0. pose proof (fit_runnable s file db0 FI E0 G0) as RI.
  destruct (run_ok (s_world s) (s_fast s) (s_symlinks s) (s_found s) (s_paths s) db0 RI) as (c1 & db1 & E1 & OK & MA & TI & ON).
  exists c1, db1. split; [exact E1|]. constructor; auto; [|apply ON, G0|eapply run_few; eauto]. apply TI. intros mb I. now apply (fi_shrunk _ _ FI db0).
Qed.
Lemma session_went s fuel file r : fit s file -> stored (w_hash (s_world s)) file -> update_index s fuel file = Ok r -> exists db0 db1 db2 c1 c2, went s fuel file db0 db1 db2 c1 c2.
Proof.
  intros FI ST EU. destruct (get_good s file FI ST) as (db0 & E0 & G0). destruct (run_good s file db0 FI E0 G0) as (c1 & db1 & E1 & G1).
  pose proof EU as EU'. unfold update_index in EU. rewrite E0 in EU. cbn [bind] in EU. rewrite E1 in EU. cbn [bind] in EU. destruct (s_purge s) eqn:EP.
  - apply bind_ok in EU as ([c2 db2] & E2 & EU). apply Ok_inj in EU. subst r. destruct (purge_good _ _ _ _ _ _ _ G1 E2) as (G2 & PU & EC).
    exists db0, db1, db2, c1, c2. constructor; auto. eapply fit_runnable; eauto.
  - cbn [bind] in EU. apply Ok_inj in EU. subst r. exists db0, db1, db1, c1, false. constructor; auto. eapply fit_runnable; eauto.
Qed.
Lemma session_ok s file : fit s file -> stored (w_hash (s_world s)) file -> exists file' bound, (forall fuel, (bound <= fuel)%nat -> index_session s fuel file = Ok file').
Proof.
  intros FI ST. destruct (get_good s file FI ST) as (db0 & E0 & G0). destruct (run_good s file db0 FI E0 G0) as (c1 & db1 & E1 & G1).
  assert (EU : exists c2 db2 bound, forall fuel, (bound <= fuel)%nat -> update_index s fuel file = Ok (c1 || c2, db2)).
  { unfold update_index. rewrite E0. cbn [bind]. rewrite E1. cbn [bind]. destruct (s_purge s); [|exists false, db1, O; reflexivity].
    destruct (purge_ok (w_hash (s_world s)) db1 (s_checks s) (s_highest s) (gd_ok _ _ G1) (gd_few _ _ G1) (gd_mailed _ _ G1) (fun _ => once_paths _ (gd_once _ _ G1))) as (db2 & bound & EB & _).
    exists (negb (forallb is_live (msgs db1))), db2, bound. intros fuel L. rewrite (EB fuel L). reflexivity. }
  destruct EU as (c2 & db2 & bound & EU). pose proof (EU bound (le_n _)) as EB. destruct (session_went s bound file _ FI ST EB) as (d0 & d1 & d2 & k1 & k2 & WE).
  rewrite (we_update _ _ _ _ _ _ _ _ WE) in EB. apply Ok_inj in EB. injection EB as ED ->.
  pose proof (we_good2 _ _ _ _ _ _ _ _ WE) as G2. pose proof (fi_size _ _ FI _ _ _ (EU bound (le_n _))) as SZ.
  destruct (write_ok _ db2 (match file with Some F => F | None => [] end) (gd_ok _ _ G2) SZ) as (_ & F & _ & EW & _).
  destruct (c1 || c2) eqn:EC; [exists (Some F)|exists file]; exists bound; intros fuel L; unfold index_session; rewrite (EU fuel L); cbn [bind]; [|reflexivity].
  rewrite (good_checked s _ _ G2). cbn [bind]. rewrite EW. reflexivity.
Qed.
Lemma session_stored s fuel file file' : fit s file -> stored (w_hash (s_world s)) file -> index_session s fuel file = Ok file' -> exists db0 db1 db2 c1 c2,
  went s fuel file db0 db1 db2 c1 c2 /\ stored (w_hash (s_world s)) file' /\
  ((c1 || c2 = false /\ file' = file) \/ (c1 || c2 = true /\ exists F, file' = Some F /\ write_database db2 (match file with Some F => F | None => [] end) = Ok F /\ file_len db2 < 2 ^ 31)).
Proof.
  intros FI ST E. unfold index_session in E. apply bind_ok in E as ([ch db] & EU & E). destruct (session_went s fuel file _ FI ST EU) as (db0 & db1 & db2 & c1 & c2 & WE).
  exists db0, db1, db2, c1, c2. split; [exact WE|]. pose proof EU as EU'. rewrite (we_update _ _ _ _ _ _ _ _ WE) in EU. apply Ok_inj in EU. injection EU as <- <-.
  destruct (c1 || c2) eqn:EC.
  - apply bind_ok in E as (u & _ & E). apply bind_ok in E as (F & EW & E). apply Ok_inj in E. subst file'. pose proof (fi_size _ _ FI _ _ _ EU') as SZ. split.
    + intros F' EF. injection EF as <-. exists db2, (match file with Some F => F | None => [] end). split; [exact EW|]. split; [apply (we_good2 _ _ _ _ _ _ _ _ WE)|exact SZ].
    + right. eauto.
  - apply Ok_inj in E. subst file'. split; [exact ST|]. now left.
Qed.

Lemma history_stored h file : history h file -> forall s, Forall (fun x => same_program (fst x) s) h -> stored (w_hash (s_world s)) file.
Proof.
  induction 1 as [|h fuel s0 file file' H IH FI SP E]; intros s SM; [intros F; discriminate|].
  inversion SM as [|? ? S1 S2]; subst. cbn [fst] in S1. destruct S1 as (_ & EH & _). rewrite EH.
  destruct (session_stored s0 fuel file file' FI (IH s0 SP) E) as (d0 & d1 & d2 & c1 & c2 & _ & ST & _). exact ST.
Qed.
Lemma history_ok h file s : history h file -> Forall (fun x => same_program (fst x) s) h -> fit s file ->
  exists file' bound, forall fuel, (bound <= fuel)%nat -> index_session s fuel file = Ok file'.
Proof. intros H SP FI. apply session_ok; auto. eapply history_stored; eauto. Qed.
