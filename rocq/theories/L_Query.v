(* Searches after any history, with arguments of every kind. *)
From Coq Require Import Sorted.
From Verif Require Import Base M_Encoding M_TokTable S_TokTable M_DbFile S_DbFile M_Search S_Search M_Tokens S_Tokens M_Mbox S_Mbox M_Update S_Update M_Session S_Session
  L_DbFile5 L_Output3 L_Search6 L_Update13 L_Session L_Session2 L_Session3 L_Session4 L_Session5.
Local Open Scope N_scope.

Lemma Forall_iff {A} (P Q : A -> Prop) l : (forall x, In x l -> (P x <-> Q x)) -> Forall P l <-> Forall Q l.
Proof. intros H. rewrite !Forall_forall. split; intros G x I; apply H; auto. Qed.
Section Same.
Variables (h : N -> bytes -> N) (db db' : database).
Hypotheses (OK : db_ok h db) (OK' : db_ok h db') (SD : same_db db db').
Lemma same_message i m' : message db' i = Some m' -> exists m, message db i = Some m /\ same_msg m m'.
Proof. intros E. destruct SD as (_ & FM & _). exact (F2_nth' _ _ _ FM _ _ E). Qed.
Lemma same_message' i m : message db i = Some m -> exists m', message db' i = Some m' /\ same_msg m m'.
Proof. intros E. destruct SD as (_ & FM & _). exact (F2_nth _ _ _ FM _ _ E). Qed.
Lemma same_path m m' : In m (msgs db) -> same_msg m m' -> path_of db' m' = path_of db m.
Proof.
  intros I (S & _). unfold path_of. rewrite S. destruct (src m) as [|p mt sz|p|fi mi] eqn:E; try reflexivity. destruct SD as (_ & _ & FB & _).
  destruct (ok_places _ _ OK m fi mi I E) as (mb & st & ln & N1 & _). rewrite N1. destruct (F2_nth _ _ _ FB _ _ N1) as (mb' & N2 & P & _). rewrite N2. exact P.
Qed.
Lemma same_size m m' : In m (msgs db) -> same_msg m m' -> size_of db' m' = size_of db m.
Proof.
  intros I (S & _). unfold size_of. rewrite S. destruct (src m) as [|p mt sz|p|fi mi] eqn:E; try reflexivity. destruct SD as (_ & _ & _ & FP & _). specialize (FP m fi mi I E).
  destruct (ok_places _ _ OK m fi mi I E) as (mb & st & ln & N1 & _ & N2 & _ & N3 & _). unfold place in FP. rewrite N1, N2, N3 in FP. rewrite N1, N3.
  destruct (nth_error (mboxen db') (N.to_nat fi)) as [mb'|]; [|discriminate]. destruct (nth_error (starts mb') (N.to_nat mi)); [|discriminate]. destruct (nth_error (lens mb') (N.to_nat mi)); [|discriminate]. congruence.
Qed.
Lemma same_flag m m' c : same_msg m m' -> flag_on m' c = flag_on m c.
Proof. intros (_ & _ & A & B & C & _). unfold flag_on. now rewrite A, B, C. Qed.
Lemma same_live i : live db' i <-> live db i.
Proof.
  split; intros (m & E & ND).
  - destruct (same_message _ _ E) as (m0 & E0 & S & _). exists m0. split; [exact E0|congruence].
  - destruct (same_message' _ _ E) as (m0 & E0 & S & _). exists m0. split; [exact E0|congruence].
Qed.
Lemma same_found key t i : S_Search.found db' key t i <-> S_Search.found db key t i.
Proof.
  destruct (same_alike _ _ _ OK OK' SD i) as (AW & _). unfold S_Search.found. split; (intros [(p & w & A & B & C)|(SP & m & w & E & P & L)]; [left; exists p, w; split; [exact A|split; [now apply AW|exact C]]|right; split; [exact SP|]]).
  - destruct (same_message _ _ E) as (m0 & E0 & S). exists m0, w. split; [exact E0|]. split; [|exact L]. rewrite <- (same_path m0 m); [exact P|eapply nth_error_In; exact E0|exact S].
  - destruct (same_message' _ _ E) as (m0 & E0 & S). exists m0, w. split; [exact E0|]. split; [|exact L]. rewrite (same_path m m0); [exact P|eapply nth_error_In; exact E|exact S].
Qed.
Lemma same_sat sd a i : live db i -> arg_sat sd db' a i <-> arg_sat sd db a i.
Proof.
  intros (m & E & ND). destruct (same_message' _ _ E) as (m' & E' & SM). assert (IM : In m (msgs db)) by (eapply nth_error_In; exact E).
  destruct a as [key al|id|e|lo hi|fs]; cbn [arg_sat].
  - assert (T : forall t, term_sat db' key t i <-> term_sat db key t i) by (intros t; unfold term_sat; destruct (s_not t); rewrite same_found; reflexivity).
    split; intros (ts & I & G); exists ts; (split; [exact I|]); intros t J; apply T; auto.
  - destruct (same_alike _ _ _ OK OK' SD i) as (_ & AI & _). apply AI.
  - rewrite E, E'. assert (D : date m' = date m) by (apply SM; exact ND). split; intros (x & lo & hi & X & A & B); injection X as <-; eexists _, lo, hi; (split; [reflexivity|]); (split; [exact A|]); [rewrite <- D|rewrite D]; exact B.
  - rewrite E, E'. pose proof (same_size m m' IM SM) as Z. split; intros (x & z & X & A & B); injection X as <-; eexists _, z; (split; [reflexivity|]); (split; [|exact B]); congruence.
  - rewrite E, E'. split; intros (x & X & A); injection X as <-; eexists; (split; [reflexivity|]); intros ng c J; specialize (A ng c J); [rewrite <- (same_flag m m') by exact SM|rewrite (same_flag m m') by exact SM]; exact A.
Qed.
Lemma no_imap_same : no_imap db' -> no_imap db.
Proof. intros H m p I S. apply In_nth_error in I as (k & K). destruct (same_message' (N.of_nat k) m) as (m' & E' & X & _); [unfold message; now rewrite Nat2N.id|]. apply (H m' p); [eapply nth_error_In; exact E'|congruence]. Qed.
Lemma named_same : boxes_named db' -> boxes_named db.
Proof.
  intros H m fi mi I S. pose proof I as J. apply In_nth_error in J as (k & K). destruct (same_message' (N.of_nat k) m) as (m' & E' & X); [unfold message; now rewrite Nat2N.id|].
  rewrite <- (same_path m m' I X). apply (H m' fi mi); [eapply nth_error_In; exact E'|destruct X as (X & _); congruence].
Qed.
Lemma ok_same sd a : arg_ok sd db' a -> arg_ok sd db a.
Proof.
  destruct a as [key al|id|e|lo hi|fs]; cbn [arg_ok]; auto.
  - intros (A & B & C & D). split; [exact A|]. split; [exact B|]. split; [exact C|]. destruct key as [k|]; [|exact D]. destruct D as (D & G). split; [exact D|]. intros P. destruct (G P) as (G1 & G2 & G3 & G4).
    split; [exact G1|]. split; [exact (no_imap_same G2)|]. split; [exact (named_same G3)|exact G4].
  - intros (A & B & C). split; [exact A|]. split; [exact B|]. exact (no_imap_same C).
Qed.
End Same.
Lemma history_any sd s file h F db r args : history ((s, file) :: h) (Some F) -> orderly ((s, file) :: h) -> holds_index (s_world s) F db -> open_db F = Ok r ->
  Forall (arg_ok sd db) args ->
  exists l, search sd F r false (map show_arg args) = Ok l /\ StronglySorted N.lt l /\ forall i, In i l <-> live db i /\ Forall (fun a => arg_sat sd db a i) args.
Proof.
  intros H O E EO AO. destruct (history_main _ _ _ _ _ H O E) as (dbF & old & EW & KU & SD & G). pose proof (gd_ok _ _ (ku_good _ _ _ KU)) as OK. pose proof (gd_ok _ _ G) as OK'.
  destruct (search_main sd (w_hash (s_world s)) dbF old F r args OK EW EO) as (l & EL & SL & HL).
  { revert AO. apply Forall_impl. intros a. apply (ok_same _ _ _ OK SD). }
  exists l. split; [exact EL|]. split; [exact SL|]. intros i. rewrite HL. split; intros (LV & A).
  - split; [apply (same_live _ _ SD); exact LV|]. revert A. apply Forall_impl. intros a. apply (same_sat _ _ _ OK OK' SD). exact LV.
  - apply (same_live _ _ SD) in LV. split; [exact LV|]. revert A. apply Forall_impl. intros a. apply (same_sat _ _ _ OK OK' SD). exact LV.
Qed.
