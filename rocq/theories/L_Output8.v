(* Names, flags, blank lines, checksums; examples. *)
From Coq Require Import Permutation.
From Verif Require Import Base M_DbFile S_DbFile M_Tokens M_Search M_Paths M_Output S_Search S_Update S_Output L_DbFile7 L_Search6 L_TokTable L_Update15 L_Output L_Output2 L_Output3 L_Output4 L_Output5 L_Output6 L_Output7.
Local Open Scope N_scope.

(* C33 *)
Lemma last_colon_app a : forall u, ~ In (ch ":") u -> last_colon (a ++ ch ":" :: u) = Some (ch ":" :: u).
Proof.
  induction a as [|c a IH]; intros u H.
  - cbn [app last_colon]. assert (E : last_colon u = None).
    { pose proof (last_colon_ok u) as X. destruct (last_colon u) as [t|]; [|reflexivity]. exfalso. destruct X as (q & v & -> & -> & _). apply H, in_app_iff. right. now left. }
    rewrite E. change (ch ":" =? ch ":") with true. reflexivity.
  - cbn [app last_colon]. now rewrite IH.
Qed.
Lemma last_colon_none p : ~ In (ch ":") p -> last_colon p = None.
Proof.
  intros H. pose proof (last_colon_ok p) as X. destruct (last_colon p) as [t|]; [|reflexivity]. exfalso. destruct X as (q & v & -> & -> & _).
  apply H, in_app_iff. right. now left.
Qed.
Lemma flags_back i dir nw s r f p : mk_maildir_path i dir nw s r f = Ok p -> s || r || f = true \/ ~ In (ch ":") dir ->
  scan_maildir_flags p = (s, r, f).
Proof.
  intros H C. apply maildir_path in H. subst p. unfold maildir_base, scan_maildir_flags.
  destruct (s || r || f) eqn:E.
  - assert (X : forall x y u, x ++ bs "/" ++ bs "123456789." ++ y ++ bs ".mairix" ++ ch ":" :: u = (x ++ bs "/" ++ bs "123456789." ++ y ++ bs ".mairix") ++ ch ":" :: u)
      by (intros x y u; now rewrite <- !app_assoc).
    destruct s, r, f; try discriminate E;
      (unfold flag_tail; cbn [orb]; match goal with |- context [bs ":2," ++ ?u] => change (bs ":2," ++ u) with (ch ":" :: (bs "2," ++ u)) end;
       rewrite X, last_colon_app by (cbn; intuition discriminate); reflexivity).
  - destruct C as [C|C]; [discriminate|]. destruct s, r, f; try discriminate E. rewrite last_colon_none; [reflexivity|].
    unfold flag_tail. cbn [orb]. rewrite !app_nil_r, !in_app_iff. intros [[H|H]|[H|H]].
    + now apply C.
    + destruct nw; revert H; cbn; intuition discriminate.
    + revert H. cbn. intuition discriminate.
    + apply (base_no_colon i). now rewrite !in_app_iff.
Qed.
Lemma flags_lost : exists p, mk_maildir_path 4 (bs "/m/a:2,S") true false false false = Ok p /\ scan_maildir_flags p <> (false, false, false).
Proof. eexists. split; [vm_compute; reflexivity|]. now vm_compute. Qed.

(* C34 *)
Lemma maildir_differ i j dir n1 s1 r1 f1 n2 s2 r2 f2 p q :
  mk_maildir_path i dir n1 s1 r1 f1 = Ok p -> mk_maildir_path j dir n2 s2 r2 f2 = Ok q -> i <> j -> p <> q.
Proof. intros H1 H2 N E. apply maildir_path in H1, H2. rewrite E in H1. rewrite H1 in H2. apply maildir_inj in H2. congruence. Qed.
Lemma mh_differ i j dir p q : mk_mh_path i dir = Ok p -> mk_mh_path j dir = Ok q -> i <> j -> p <> q.
Proof.
  intros H1 H2 N E. apply mh_path in H1, H2. rewrite E in H1. rewrite H1 in H2. apply app_inv_head in H2. apply app_inv_head in H2. apply show_int_inj in H2. lia.
Qed.
Lemma mh_cleared i dir p d e : mk_mh_path i dir = Ok p -> name d dir = Some Dir -> name d p <> Some Dir ->
  prepare FT_mh false d dir = Ok e -> name e p = None.
Proof.
  intros H1 H2 H3 H4. apply mh_path in H1. subst p. unfold prepare in H4. cbv iota in H4. unfold ensure_dir at 1 in H4.
  assert (ES : stat_node d dir = Some Dir) by (unfold stat_node; rewrite resolve_plain by congruence; exact H2).
  rewrite ES in H4. cbn [bind] in H4. apply Ok_inj in H4. subst e. unfold clear_mh_folder, clear_dir. rewrite ES. cbn [name].
  destruct (mh_inside (i + 1) dir) as (k & M & E). rewrite E. destruct M as [M1 M2].
  assert (NS : ~ In 47 k).
  { destruct M2 as (k' & D & [-> | ->]); [now apply digits_no_slash|]. rewrite in_app_iff. intros [X|X]; [now apply digits_no_slash in X|]. revert X. cbn. intuition discriminate. }
  rewrite (proj2 (name_in_ok dir _ k)) by auto. rewrite (proj2 (valid_mh_ok k)) by (split; assumption).
  rewrite <- E. destruct (name d (dir ++ bs "/" ++ show_int (i + 1))) as [[| |]|]; congruence.
Qed.

(* C35 *)
Lemma blank_line w t : (forall c, t = [c] -> c = 10) -> ends_blank (mbox_record w t).
Proof.
  intros H. unfold ends_blank, mbox_record, source_line, mbox_terminate, bs_nl.
  destruct (rev t) as [|c [|c' r]] eqn:E.
  - apply (f_equal (@rev N)) in E. rewrite rev_involutive in E. subst t. exists (from_line ++ bs "X-source-folder: " ++ w). now rewrite <- !app_assoc.
  - apply (f_equal (@rev N)) in E. rewrite rev_involutive in E. subst t. rewrite (H c eq_refl). exists (from_line ++ bs "X-source-folder: " ++ w). now rewrite <- !app_assoc.
  - apply (f_equal (@rev N)) in E. rewrite rev_involutive in E. cbn [rev] in E. subst t. destruct (N.eqb_spec c 10) as [->|NE]; cbn [negb].
    + destruct (N.eqb_spec c' 10) as [->|NE]; cbn [negb].
      * exists (from_line ++ bs "X-source-folder: " ++ w ++ [10] ++ rev r). rewrite <- !app_assoc. reflexivity.
      * exists (from_line ++ bs "X-source-folder: " ++ w ++ [10] ++ rev r ++ [c']). rewrite <- !app_assoc. reflexivity.
    + exists (from_line ++ bs "X-source-folder: " ++ w ++ [10] ++ (rev r ++ [c']) ++ [c]). rewrite <- !app_assoc. reflexivity.
Qed.
Lemma file_blank expand d q b : append_file_to_mbox expand d q = Ok b -> (forall c, map_file expand d q = Ok (Some [c]) -> c = 10) -> b = [] \/ ends_blank b.
Proof.
  unfold append_file_to_mbox. intros H ONE. apply bind_ok in H as (o & M & H). apply Ok_inj in H. subst b. destruct o as [t|]; [right|now left].
  apply blank_line. intros c ->. now apply ONE.
Qed.
Lemma mboxmsg_blank csum expand d F r i b w : append_mboxmsg_to_mbox csum expand d F r i = Ok (b, w) ->
  (forall q c, get_validated_mbox_msg csum expand d F r i = Ok (V_good q [c]) -> c = 10) -> b = [] \/ ends_blank b.
Proof.
  unfold append_mboxmsg_to_mbox. intros H ONE. apply bind_ok in H as (v & M & H). apply Ok_inj in H. destruct v as [| |q t]; injection H as <- <-; [now left..|right].
  apply blank_line. intros c ->. eapply ONE. exact M.
Qed.

(* C46 *)
Lemma checked_copy csum expand hashf db old F r d i x w st ln ck : db_ok hashf db -> write_database db old = Ok F -> open_db F = Ok r ->
  message db i = Some x -> indexed_at db x w st ln ck -> st < 2 ^ 31 -> ln < 2 ^ 31 -> maps_small expand d ->
  exists v, get_validated_mbox_msg csum expand d F r i = Ok v /\
    (forall w' t, v = V_good w' t <-> unchanged csum expand d db x w' t) /\
    (v = V_bad <-> changed csum expand d db x) /\
    (v = V_unmapped <-> forall w' t, ~ text_now expand d db x w' t).
Proof.
  intros OK EW EO HM IX L1 L2 MS. apply validated_spec; [eapply out_written; eassumption|]. exists w, st, ln, ck. split; [exact IX|]. split; [exact L1|]. split; [exact L2|]. apply MS.
Qed.
Lemma same_bytes csum expand d db m w st ln t0 w' t : indexed_at db m w st ln (csum t0) -> unchanged csum expand d db m w' t ->
  (csum t = csum t0 -> t = t0) -> w' = w /\ t = t0 /\ exists b, map_file expand d w = Ok (Some b) /\ t0 = firstn (N.to_nat ln) (skipn (N.to_nat st) b).
Proof.
  intros IX (TN & st' & ln' & IX') NC. destruct (indexed_fun _ _ _ _ _ _ _ _ _ _ IX IX') as (E1 & _ & _ & E4). assert (t = t0) by (apply NC; congruence). subst t.
  split; [congruence|]. split; [reflexivity|]. destruct TN as (st2 & ln2 & ck2 & b & IX2 & M & E).
  destruct (indexed_fun _ _ _ _ _ _ _ _ _ _ IX IX2) as (F1 & F2 & F3 & _). subst. exists b. auto.
Qed.

(* raw output involves no match folder *)
Lemma raw_all csum expand imap hard sd hashf db old F r ft dir d :
  db_ok hashf db -> write_database db old = Ok F -> open_db F = Ok r -> places_small db ->
  forall qsort, (forall q l, qsort = Some q -> Permutation l (q l)) -> forall threads args l,
  ft = FT_raw -> search sd F r threads args = Ok l ->
  (forall m w st ln ck, In m (msgs db) -> indexed_at db m w st ln ck -> st + ln < 2 ^ 31) ->
  let l' := match qsort with Some q => q l | None => l end in
  exists o bs, search_top csum expand imap hard sd qsort threads false F dir args ft d = Ok (o, status l') /\
    o_disc o = d /\ o_stdout o = concat bs /\ Forall2 (fun i b => exists m, message db i = Some m /\ raw_line db m b) l' bs.
Proof.
  intros OK EW EO SM qsort PM threads args l HF HS EN l'. eapply raw_main; try eassumption. subst ft. intros m w _ _ q _ [].
Qed.
