(* The main lemma about an indexing run. *)
From Coq Require Import Permutation Sorted.
From Verif Require Import Base M_Encoding M_TokTable S_TokTable M_DbFile S_DbFile M_Search S_Search M_Thread S_Thread M_Purge S_Purge M_Tokens S_Tokens M_Mbox S_Mbox M_Update S_Update
  L_Encoding L_TokTable L_Thread L_DbFile5 L_Purge L_Thread2 L_Update L_Update2 L_Update3 L_Update4 L_Update5 L_Update6 L_Update7 L_Update8.
From Verif Require M_Paths.
Local Open Scope N_scope.

Lemma Forall2_nth {A B} (R : A -> B -> Prop) l l' : Forall2 R l l' -> forall i a, nth_error l i = Some a -> exists b, nth_error l' i = Some b /\ R a b.
Proof. induction 1 as [|a b l l' H F IH]; intros [|i] x E; try discriminate; cbn in *; [injection E as <-; eauto|auto]. Qed.
Lemma Forall2_nth_r {A B} (R : A -> B -> Prop) l l' : Forall2 R l l' -> forall i b, nth_error l' i = Some b -> exists a, nth_error l i = Some a /\ R a b.
Proof. induction 1 as [|a b l l' H F IH]; intros [|i] x E; try discriminate; cbn in *; [injection E as <-; eauto|auto]. Qed.

Lemma places_of_tight W db b mb : db_ok (w_hash W) db -> tight db -> nth_error (mboxen db) b = Some mb -> places_known mb /\ mb_n mb <= N.of_nat (length (starts mb)).
Proof.
  intros OK TI E. assert (EB : nth_error (mboxen db) (N.to_nat (N.of_nat b)) = Some mb) by now rewrite Nat2N.id.
  pose proof (ti_run db TI _ _ EB) as R. pose proof (ok_mboxen _ _ OK) as F. rewrite Forall_forall in F. destruct (F mb (nth_error_In _ _ E)) as (_ & _ & _ & LC & _).
  pose proof (ti_level db TI) as LV. rewrite Forall_forall in LV. destruct (LV mb (nth_error_In _ _ E)) as [LV1 LV2].
  split; [|lia]. intros i I. assert (IR : In i (run_of (N.of_nat b) (msgs db))) by (rewrite R; apply in_map_iff; exists (N.to_nat i); split; [lia|apply in_seq; lia]).
  unfold run_of in IR. apply in_flat_map in IR as (m & I1 & I2). destruct (src m) as [| | |fi mi] eqn:ES; try contradiction. destruct (N.eqb_spec fi (N.of_nat b)) as [->|]; [|contradiction].
  destruct I2 as [<-|[]]. destruct (ok_places _ _ OK m _ _ I1 ES) as (mb' & st & ln & E' & L & A & _ & B & _). rewrite EB in E'. injection E' as <-.
  destruct (nth_error (checks mb) (N.to_nat mi)) as [c|] eqn:EC; [|apply nth_error_None in EC; lia]. exists st, ln, c. auto.
Qed.

Record boxes_ok (W : world) (symlinks : bool) (paths : list bytes) (db : database) (boxes : list (mbox * scan)) : Prop := {
  bx_old : forall b mb, nth_error (mboxen db) b = Some mb -> exists mb2 s, nth_error boxes b = Some (mb2, s) /\ aged W mb mb2 s;
  bx_new : forall b mb2 s, (length (mboxen db) <= b)%nat -> nth_error boxes b = Some (mb2, s) -> born W paths mb2 s;
  bx_paths : (forall p, In p paths -> w_map W p <> Map_failed) -> forall p, (exists mb2 s, In (mb2, s) boxes /\ mb_path mb2 = Some p) <-> eligible W symlinks paths p;
  bx_only : forall p mb2 s, In (mb2, s) boxes -> mb_path mb2 = Some p -> eligible W symlinks paths p }.

Lemma boxes_build W symlinks paths db : world_ok W -> db_ok (w_hash W) db -> tight db -> NoDup paths -> (forall p, In p paths -> w_map W p <> Map_no_stat) ->
  exists boxes, build_mbox_lists W symlinks paths (mboxen db) = Ok boxes /\ boxes_ok W symlinks paths db boxes.
Proof.
  intros WO OK TI ND NS. unfold build_mbox_lists. set (l := extant_mboxen W symlinks paths).
  destruct (extant_sorted l) as (P & TW & SS). cbn zeta in *. pose proof (extant_nodup W symlinks paths ND) as NE. fold l in NE.
  rewrite (proj2 TW NE). specialize (SS NE). set (ex := qsort compare_extant_mboxen l) in *.
  assert (HE : forall e, In e ex -> word (e_mtime e) /\ word (e_size e) /\ In (e_path e) paths).
  { intros e I. apply (Permutation_in _ (Permutation_sym P)) in I. apply extant_in in I as (I & link & E & _). destruct (wo_lstat W WO _ _ _ _ E). auto. }
  assert (HL : forall e, In e ex -> exists link, w_lstat W (e_path e) = Some (link, e_mtime e, e_size e)).
  { intros e I. apply (Permutation_in _ (Permutation_sym P)) in I. apply extant_in in I as (I & link & E & _). eauto. }
  assert (EE : forall p, eligible W symlinks paths p <-> exists e, In e ex /\ e_path e = p).
  { intros p. split.
    - intros (I & link & mt & sz & E & B). exists {| e_path := p; e_mtime := mt; e_size := sz |}. split; [|reflexivity]. apply (Permutation_in _ P). apply extant_in. cbn. eauto.
    - intros (e & I & <-). apply (Permutation_in _ (Permutation_sym P)) in I. apply extant_in in I as (I & link & E & B). split; [exact I|]. exists link, (e_mtime e), (e_size e). auto. }
  destruct (marry_ok ex (mboxen db) SS) as (old & fresh & EM & FM & NF & IF). rewrite EM. cbn [bind].
  pose proof (ok_mboxen _ _ OK) as FS. rewrite Forall_forall in FS.
  destruct (refresh_all_ok W (old ++ fresh)) as (boxes & EB & FB).
  { apply Forall_app. split.
    - apply Forall_forall. intros mb1 I. apply In_nth_error in I as (b & Eb). destruct (Forall2_nth_r _ _ _ FM b mb1 Eb) as (mb & E & HM).
      destruct (places_of_tight W db b mb OK TI E) as [PK LN]. destruct (FS mb (nth_error_In _ _ E)) as (_ & _ & _ & _ & CK).
      pose proof (ti_level db TI) as LV. rewrite Forall_forall in LV. pose proof (LV mb (nth_error_In _ _ E)) as LM.
      destruct HM as [(e & I & EP & ->)|(NI & ->)].
      + split; [exact LM|]. split; [exact CK|]. split; [exact LN|]. split; [exact PK|]. cbn. rewrite EP. intros p X. injection X as <-. apply NS. now apply HE.
      + split; [split; reflexivity|]. split; [constructor|]. split; [cbn; lia|]. split; [intros i Hi; cbn in Hi; lia|]. discriminate.
    - apply Forall_forall. intros mb1 I. apply IF in I as (e & I & _ & ->). split; [split; reflexivity|]. split; [constructor|]. split; [cbn; lia|]. split; [intros i Hi; cbn in Hi; lia|].
      cbn. intros p X. injection X as <-. apply NS. now apply HE. }
  rewrite EB. exists boxes. split; [reflexivity|]. assert (LO : length old = length (mboxen db)) by (symmetry; eapply Forall2_len; exact FM).
  constructor.
  - intros b mb E. destruct (Forall2_nth _ _ _ FM b mb E) as (mb1 & E1 & HM).
    assert (E1' : nth_error (old ++ fresh) b = Some mb1) by (rewrite nth_error_app1; [exact E1|apply nth_error_Some; congruence]).
    destruct (Forall2_nth _ _ _ FB b mb1 E1') as ([mb2 s] & E2 & R & SO & NO). exists mb2, s. split; [exact E2|].
    apply (aged_ok W ex mb mb1 mb2 s); auto. { intros e I. destruct (HE e I) as (A & B & _). auto. } { apply FS. eapply nth_error_In; eauto. }
  - intros b mb2 s L E2. destruct (Forall2_nth_r _ _ _ FB b (mb2, s) E2) as (mb1 & E1 & R & SO & NO).
    rewrite nth_error_app2 in E1 by lia. apply nth_error_In in E1. apply IF in E1 as (e & I & _ & ->). apply (born_ok W ex paths e mb2 s); auto.
  - intros NM p. rewrite EE. split.
    + intros (mb2 & s & I & EP). apply In_nth_error in I as (b & Eb). destruct (Forall2_nth_r _ _ _ FB b (mb2, s) Eb) as (mb1 & E1 & R & SO & NO).
      assert (EP1 : mb_path mb1 = Some p) by (cbn [fst snd] in R; inversion R; subst; cbn in *; congruence). clear - E1 EP1 FM IF.
      apply nth_error_In in E1. apply in_app_iff in E1 as [I|I].
      * apply In_nth_error in I as (b0 & Eb0). destruct (Forall2_nth_r _ _ _ FM b0 mb1 Eb0) as (mb & E & [(e & I & EP & ->)|(_ & ->)]); [|discriminate]. exists e. cbn in EP1. split; [exact I|congruence].
      * apply IF in I as (e & I & _ & ->). exists e. cbn in EP1. split; [exact I|congruence].
    + intros (e & I & EP). assert (IN : exists mb1, In mb1 (old ++ fresh) /\ mb_path mb1 = Some p /\ w_map W p <> Map_failed).
      { destruct (HE e I) as (_ & _ & IP). rewrite EP in IP. destruct (existsb (fun mb => match mb_path mb with Some q => bytes_eqb q p | None => false end) (mboxen db)) eqn:EX.
        - apply existsb_exists in EX as (mb & IM & Q). destruct (mb_path mb) as [q|] eqn:EQ; [|discriminate]. apply bytes_eqb_eq in Q. subst q.
          apply In_nth_error in IM as (b & Eb). destruct (Forall2_nth _ _ _ FM b mb Eb) as (mb1 & E1 & [(e' & I' & EP' & ->)|(NI & ->)]).
          + exists (with_current mb e'). split; [apply in_app_iff; left; eapply nth_error_In; eauto|]. split; [exact EQ|auto].
          + exfalso. apply (NI e I). congruence.
        - exists (new_mbox e). split; [|split; [cbn; congruence|auto]]. apply in_app_iff. right. apply IF. exists e. split; [exact I|]. split; [|reflexivity].
          intros b IB X. assert (existsb (fun mb => match mb_path mb with Some q => bytes_eqb q p | None => false end) (mboxen db) = true); [|congruence].
          apply existsb_exists. exists b. split; [exact IB|]. rewrite X, EP. apply bytes_eqb_refl. }
      destruct IN as (mb1 & I1 & EP1 & NM1). apply In_nth_error in I1 as (b & Eb). destruct (Forall2_nth _ _ _ FB b mb1 Eb) as ([mb2 s] & E2 & R & _ & _). exists mb2, s.
      split; [eapply nth_error_In; eauto|]. cbn [fst] in R. inversion R; subst; cbn; try congruence.
  - intros p mb2 s I EP. rewrite EE. apply In_nth_error in I as (b & Eb). destruct (Forall2_nth_r _ _ _ FB b (mb2, s) Eb) as (mb1 & E1 & R & SO & NO).
    assert (EP1 : mb_path mb1 = Some p) by (cbn [fst snd] in R; inversion R; subst; cbn in *; congruence). clear - E1 EP1 FM IF.
    apply nth_error_In in E1. apply in_app_iff in E1 as [I|I].
    * apply In_nth_error in I as (b0 & Eb0). destruct (Forall2_nth_r _ _ _ FM b0 mb1 Eb0) as (mb & E & [(e & I & EP & ->)|(_ & ->)]); [|discriminate]. exists e. cbn in EP1. split; [exact I|congruence].
    * apply IF in I as (e & I & _ & ->). exists e. cbn in EP1. split; [exact I|congruence].
Qed.
