(* Matching the mailboxes of the index against those that exist. *)
From Coq Require Import Permutation Sorted.
From Verif Require Import Base M_Encoding M_TokTable S_TokTable M_DbFile S_DbFile M_Search S_Search M_Thread M_Purge M_Tokens S_Tokens M_Mbox S_Mbox M_Update S_Update L_Thread L_Mbox L_Mbox2 L_Mbox3 L_Mbox4 L_Update L_Update5.
Local Open Scope N_scope.

Definition by_path (a b : extant) : Prop := lex (e_path a) (e_path b).
Lemma extant_in W symlinks paths e : In e (extant_mboxen W symlinks paths) <->
  In (e_path e) paths /\ exists link, w_lstat W (e_path e) = Some (link, e_mtime e, e_size e) /\ (link = true -> symlinks = true).
Proof.
  unfold extant_mboxen. rewrite in_flat_map. split.
  - intros (p & I & H). destruct (w_lstat W p) as [[[link mt] sz]|] eqn:E; [|contradiction]. destruct (link && negb symlinks) eqn:B; [contradiction|].
    destruct H as [<-|[]]. cbn. split; [exact I|]. exists link. split; [exact E|]. intros ->. now destruct symlinks.
  - intros (I & link & E & B). exists (e_path e). split; [exact I|]. rewrite E. destruct link; [rewrite B by reflexivity|]; cbn; left; now destruct e.
Qed.
Lemma extant_nodup W symlinks paths : NoDup paths -> NoDup (map e_path (extant_mboxen W symlinks paths)).
Proof.
  induction 1 as [|p l H ND IH]; [constructor|]. unfold extant_mboxen. cbn [flat_map]. fold (extant_mboxen W symlinks l).
  destruct (w_lstat W p) as [[[link mt] sz]|]; [|exact IH]. destruct (link && negb symlinks); [exact IH|]. cbn. constructor; [|exact IH].
  intros I. apply H. apply in_map_iff in I as (e & <- & I). apply extant_in in I. tauto.
Qed.
Lemma ext_anti a b : compare_extant_mboxen a b = CompOpp (compare_extant_mboxen b a).
Proof. apply cmp_anti. Qed.
Lemma ext_trans a b c : compare_extant_mboxen a b <> Gt -> compare_extant_mboxen b c <> Gt -> compare_extant_mboxen a c <> Gt.
Proof. apply cmp_trans. Qed.
Lemma sorted_map_path ex : StronglySorted (fun a b => compare_extant_mboxen a b <> Gt) ex -> StronglySorted (fun a b => bytes_cmp a b <> Gt) (map e_path ex).
Proof. induction 1 as [|a l S IH F]; cbn; constructor; [exact IH|]. apply Forall_map. exact F. Qed.
Lemma extant_sorted l : let ex := qsort compare_extant_mboxen l in
  Permutation l ex /\ (twice (map e_path ex) = false <-> NoDup (map e_path l)) /\ (NoDup (map e_path l) -> StronglySorted by_path ex).
Proof.
  cbn zeta. pose proof (qsort_perm compare_extant_mboxen l) as P. split; [exact P|].
  pose proof (qsort_sorted compare_extant_mboxen ext_anti ext_trans l) as S.
  pose proof (Permutation_map e_path P) as PM. split.
  - rewrite twice_sorted by (apply sorted_map_path; exact S). symmetry. now apply NoDup_perm_iff.
  - intros ND. apply (NoDup_perm_iff _ _ PM) in ND. clear P PM. induction S as [|a l' S IH F]; [constructor|]. cbn in ND. inversion ND; subst. constructor; [auto|].
    rewrite Forall_forall in *. intros b I. specialize (F b I). unfold by_path. apply cmp_lt. unfold compare_extant_mboxen in F.
    destruct (bytes_cmp (e_path a) (e_path b)) eqn:E; [|reflexivity|congruence]. apply cmp_eq in E. exfalso. apply H1. rewrite E. now apply in_map.
Qed.

Definition married (ex : list extant) (mb mb' : mbox) : Prop :=
  (exists e, In e ex /\ mb_path mb = Some (e_path e) /\ mb' = with_current mb e) \/
  ((forall e, In e ex -> mb_path mb <> Some (e_path e)) /\ mb' = deaden_mbox mb).
Lemma match_ok ex : StronglySorted by_path ex -> forall mbs known, length known = length ex ->
  exists old known', match_mboxen ex mbs known = Ok (old, known') /\ length known' = length ex /\ Forall2 (married ex) mbs old /\
    (forall k e, nth_error ex k = Some e -> nth_error known' k = Some true <-> nth_error known k = Some true \/ exists mb, In mb mbs /\ mb_path mb = Some (e_path e)).
Proof.
  intros S. induction mbs as [|mb mbs IH]; intros known L; cbn [match_mboxen].
  - exists [], known. split; [reflexivity|]. split; [exact L|]. split; [constructor|]. intros k e _. split; [now left|]. intros [H|(m & [] & _)]. exact H.
  - assert (LK : exists o, (match mb_path mb with None => Ok None | Some p => lookup_extant_mbox ex p end) = Ok o /\
       match o with Some k => exists e, nth_error ex k = Some e /\ mb_path mb = Some (e_path e) | None => forall e, In e ex -> mb_path mb <> Some (e_path e) end).
    { destruct (mb_path mb) as [p|]; [|exists None; split; [reflexivity|]; discriminate]. destruct (lookup_box_exact ex p S) as (o & E & H). exists o. split; [exact E|].
      destruct o as [k|]; [destruct H as (e & H1 & <-); eauto|]. intros e I X. injection X as ->. apply H. now apply in_map. }
    destruct LK as (o & E & H). rewrite E. cbn [bind]. destruct o as [k|].
    + destruct H as (e & H1 & H2). rewrite H1. cbn [fetch bind]. destruct (IH (set_nth known k true)) as (old & kn & E' & L' & F & K); [now rewrite length_set|].
      rewrite E'. cbn [bind]. exists (with_current mb e :: old), kn. split; [reflexivity|]. split; [exact L'|]. split.
      * constructor; [left; exists e; split; [eapply nth_error_In; eauto|auto]|exact F].
      * intros j e' J. rewrite (K j e' J). destruct (Nat.eq_dec k j) as [->|NE].
        -- rewrite nth_set_same by (rewrite L; apply nth_error_Some; congruence). assert (e' = e) as -> by congruence.
           split; [intros _; right; exists mb; split; [now left|exact H2]|now left].
        -- rewrite nth_set_other by congruence. split.
           ++ intros [X|(m & I & X)]; [now left|right; exists m; split; [now right|exact X]].
           ++ intros [X|(m & [<-|I] & X)]; [now left| |right; eauto]. exfalso. apply NE. assert (EE : e_path e = e_path e') by congruence.
              destruct (Nat.lt_total k j) as [Q|[Q|Q]]; [|exact Q|].
              ** pose proof (sorted_nth _ _ S _ _ _ _ Q H1 J) as B. unfold by_path in B. rewrite EE in B. now apply lex_irrefl in B.
              ** pose proof (sorted_nth _ _ S _ _ _ _ Q J H1) as B. unfold by_path in B. rewrite EE in B. now apply lex_irrefl in B.
    + cbn [bind]. destruct (IH known L) as (old & kn & E' & L' & F & K). rewrite E'. cbn [bind]. exists (deaden_mbox mb :: old), kn. split; [reflexivity|]. split; [exact L'|]. split.
      * constructor; [right; auto|exact F].
      * intros j e' J. rewrite (K j e' J). split.
        -- intros [X|(m & I & X)]; [now left|right; exists m; split; [now right|exact X]].
        -- intros [X|(m & [<-|I] & X)]; [now left| |right; eauto]. exfalso. apply (H e'); [eapply nth_error_In; eauto|exact X].
Qed.
Lemma fresh_in (ex : list extant) : forall known mb, length known = length ex ->
  In mb (map (fun x => new_mbox (fst x)) (filter (fun x => negb (snd x)) (combine ex known))) <->
  exists k e, nth_error ex k = Some e /\ nth_error known k <> Some true /\ mb = new_mbox e.
Proof.
  induction ex as [|e ex IH]; intros [|b known] mb L; try discriminate.
  - cbn. split; [contradiction|]. intros (k & e & H & _). destruct k; discriminate.
  - injection L as L. cbn [combine filter snd]. specialize (IH known mb L). destruct b; cbn [negb map].
    + rewrite IH. split.
      * intros (k & e' & H). exists (S k), e'. exact H.
      * intros ([|k] & e' & H1 & H2 & H3); [cbn in H2; congruence|]. exists k, e'. auto.
    + cbn [map fst In]. rewrite IH. split.
      * intros [<-|(k & e' & H)]; [exists O, e; cbn; split; [reflexivity|split; [discriminate|reflexivity]]|exists (S k), e'; exact H].
      * intros ([|k] & e' & H1 & H2 & H3); [left; cbn in H1; congruence|right; exists k, e'; auto].
Qed.
Lemma fresh_nodup (ex : list extant) : NoDup (map e_path ex) -> forall known,
  NoDup (map mb_path (map (fun x => new_mbox (fst x)) (filter (fun x => negb (snd x)) (combine ex known)))).
Proof.
  induction ex as [|e ex IH]; intros ND [|b known]; try (constructor; fail). cbn in ND. inversion ND; subst. cbn [combine filter snd]. destruct b; cbn [negb]; [auto|].
  cbn [map fst]. constructor; [|auto]. intros I. rewrite map_map in I. apply in_map_iff in I as ([e' b'] & E & I). cbn in E. injection E as E. apply filter_In in I as [I _]. apply in_combine_l in I.
  apply H1. rewrite <- E. now apply in_map.
Qed.
Lemma sorted_paths_nodup ex : StronglySorted by_path ex -> NoDup (map e_path ex).
Proof.
  induction 1 as [|a l S IH F]; cbn; constructor; [|exact IH]. intros I. apply in_map_iff in I as (b & E & I). rewrite Forall_forall in F. specialize (F b I). unfold by_path in F. rewrite E in F. now apply lex_irrefl in F.
Qed.
Lemma marry_ok ex mbs : StronglySorted by_path ex -> exists old fresh, marry_up_mboxen ex mbs = Ok (old ++ fresh) /\
  Forall2 (married ex) mbs old /\ NoDup (map mb_path fresh) /\
  forall mb, In mb fresh <-> exists e, In e ex /\ (forall b, In b mbs -> mb_path b <> Some (e_path e)) /\ mb = new_mbox e.
Proof.
  intros S. unfold marry_up_mboxen. destruct (match_ok ex S mbs (map (fun _ => false) ex)) as (old & kn & E & L & F & K); [now rewrite map_length|]. rewrite E. cbn [bind].
  eexists. eexists. split; [reflexivity|]. split; [exact F|]. split; [apply fresh_nodup; now apply sorted_paths_nodup|].
  intros mb. rewrite (fresh_in ex kn mb L). split.
  - intros (k & e & H1 & H2 & H3). exists e. split; [eapply nth_error_In; eauto|]. split; [|exact H3]. intros b I X. apply H2. apply (K k e H1). right. eauto.
  - intros (e & I & H & H3). apply In_nth_error in I as (k & Ek). exists k, e. split; [exact Ek|]. split; [|exact H3]. intros X. apply (K k e Ek) in X as [X|(b & I & X)].
    + apply nth_error_In in X. apply in_map_iff in X as (? & X & _). discriminate.
    + exact (H b I X).
Qed.

(* The messages found after the last one kept. *)
Lemma file_order_up ms : in_file_order ms -> chunks_up ms.
Proof.
  unfold in_file_order, chunks_up. induction ms as [|m ms IH]; intros H; [constructor|]. constructor.
  - apply IH. intros i j a b L A B. apply (H (S i) (S j) a b); [lia|exact A|exact B].
  - apply Forall_forall. intros b I. apply In_nth_error in I as (k & K). specialize (H O (S k) m b ltac:(lia) eq_refl K). lia.
Qed.
Lemma build_ok from_ok after va : exists ms, build_new_message_list from_ok after va = Ok ms /\ chunks_in va ms /\ chunks_up ms.
Proof.
  destruct (is_mmdf va) eqn:E.
  - destruct (split_mmdf from_ok va after E) as (ms & A & _ & B & C). exists ms. split; [exact A|]. split; [apply Forall_forall; exact C|now apply file_order_up].
  - destruct (split_mbox from_ok va after E) as (ms & A & _ & B & C & _). exists ms. split; [exact A|]. split; [apply Forall_forall; exact C|now apply file_order_up].
Qed.

Inductive refreshed (W : world) (mb : mbox) : mbox -> scan -> Prop :=
| Re_none : mb_path mb = None -> refreshed W mb mb {| old_valid := 0; new_msgs := [] |}
| Re_same p : mb_path mb = Some p -> c_mtime mb = f_mtime mb -> c_size mb = f_size mb -> refreshed W mb mb {| old_valid := mb_n mb; new_msgs := [] |}
| Re_scan p va k ms : mb_path mb = Some p -> ~ (c_mtime mb = f_mtime mb /\ c_size mb = f_size mb) -> w_map W p = Mapped va ->
    find_number_intact (w_csum W) mb va = Ok k -> build_new_message_list (w_from_ok W) (last_kept mb k) va = Ok ms ->
    refreshed W mb mb {| old_valid := k; new_msgs := ms |}
| Re_empty p : mb_path mb = Some p -> ~ (c_mtime mb = f_mtime mb /\ c_size mb = f_size mb) -> w_map W p = Map_empty -> refreshed W mb (with_n mb 0) {| old_valid := 0; new_msgs := [] |}
| Re_failed p : mb_path mb = Some p -> ~ (c_mtime mb = f_mtime mb /\ c_size mb = f_size mb) -> w_map W p = Map_failed -> refreshed W mb (deaden_mbox mb) {| old_valid := 0; new_msgs := [] |}.

Lemma refresh_ok W mb : level mb -> Forall (fun c => length c = 16%nat) (checks mb) -> mb_n mb <= N.of_nat (length (starts mb)) -> places_known mb ->
  (forall p, mb_path mb = Some p -> w_map W p <> Map_no_stat) ->
  exists mb' s, refresh_mbox W mb = Ok (mb', s) /\ refreshed W mb mb' s /\ scan_ok W mb' s /\ (mb_path mb' = None -> old_valid s = 0).
Proof.
  intros LV CK LN PK NS. unfold refresh_mbox. destruct (mb_path mb) as [p|] eqn:EP.
  - destruct ((c_mtime mb =? f_mtime mb) && (c_size mb =? f_size mb)) eqn:EC.
    + apply andb_true_iff in EC as [E1 E2]. apply N.eqb_eq in E1. apply N.eqb_eq in E2. eexists. eexists. split; [reflexivity|]. split; [eapply Re_same; eauto|]. split; [|congruence].
      constructor; cbn; auto; [lia|congruence].
    + assert (NC : ~ (c_mtime mb = f_mtime mb /\ c_size mb = f_size mb)) by (intros [E1 E2]; rewrite E1, E2, !N.eqb_refl in EC; discriminate).
      specialize (NS p eq_refl). destruct (w_map W p) as [va| | |] eqn:EM; [| | |congruence].
      * unfold rescan_mbox. destruct (number_intact (w_csum W) mb va PK) as (k & E & K1 & K2 & K3). rewrite E. cbn [bind].
        assert (LK : (if k =? 0 then Ok None else let! s := elem (starts mb) (k - 1) in let! l := elem (lens mb) (k - 1) in Ok (Some (s, l))) = Ok (last_kept mb k)).
        { unfold last_kept. destruct (N.eqb_spec k 0) as [->|NZ]; [reflexivity|]. destruct (PK (k - 1) ltac:(lia)) as (s & l & c & A & B & _). unfold elem. rewrite A. cbn [bind]. rewrite B. reflexivity. }
        rewrite LK. cbn [bind]. destruct (build_ok (w_from_ok W) (last_kept mb k) va) as (ms & EB & CI & CU). rewrite EB. cbn [bind].
        eexists. eexists. split; [reflexivity|]. split; [eapply Re_scan; eauto|]. split; [|congruence]. constructor; cbn; auto; [congruence|]. intros _. exists p, va. auto.
      * eexists. eexists. split; [reflexivity|]. split; [eapply Re_empty; eauto|]. split; [|reflexivity]. constructor; cbn; auto; [lia|lia|congruence].
      * eexists. eexists. split; [reflexivity|]. split; [eapply Re_failed; eauto|]. split; [|reflexivity]. constructor; cbn; auto; [split; reflexivity|lia|lia|congruence].
  - eexists. eexists. split; [reflexivity|]. split; [now apply Re_none|]. split; [|reflexivity]. constructor; cbn; auto; [lia|congruence].
Qed.
Lemma refresh_all_ok W mbs : Forall (fun mb => level mb /\ Forall (fun c => length c = 16%nat) (checks mb) /\ mb_n mb <= N.of_nat (length (starts mb)) /\ places_known mb /\
    (forall p, mb_path mb = Some p -> w_map W p <> Map_no_stat)) mbs ->
  exists boxes, refresh_mboxen W mbs = Ok boxes /\ Forall2 (fun mb b => refreshed W mb (fst b) (snd b) /\ scan_ok W (fst b) (snd b) /\ (mb_path (fst b) = None -> old_valid (snd b) = 0)) mbs boxes.
Proof.
  induction 1 as [|mb mbs (A & B & C & D & E) F IH]; cbn [refresh_mboxen].
  - exists []. split; [reflexivity|constructor].
  - destruct (refresh_ok W mb A B C D E) as (mb' & s & E1 & R). rewrite E1. cbn [bind]. destruct IH as (boxes & E2 & F2). rewrite E2. cbn [bind].
    exists ((mb', s) :: boxes). split; [reflexivity|]. constructor; [exact R|exact F2].
Qed.
