(* The whole search, by format of the match folder. *)
From Coq Require Import Permutation Sorted.
From Verif Require Import Base M_DbFile S_DbFile M_Search M_Paths M_Output S_Search S_Output L_TokTable L_DbFile5 L_Search L_Search6 L_Output L_Output2 L_Output3 L_Output4 L_Output5 L_Output6.
Local Open Scope N_scope.

Lemma ensure_ready d p : name d p = None \/ name d p = Some Dir -> exists e, ensure_dir d p = Ok e /\ name e p = Some Dir /\ forall q, q <> p -> name e q = name d q.
Proof.
  intros H. unfold ensure_dir, stat_node. rewrite resolve_plain by (intros t; destruct H; congruence).
  destruct H as [E|E]; rewrite E.
  - exists (set_name d p (Some Dir)). split; [reflexivity|]. split; [apply name_set_same|]. intros q. apply name_set_other.
  - exists d. auto.
Qed.
Lemma prepare_ready ft d dir : ft = FT_maildir \/ ft = FT_mh -> folder_ready ft d dir ->
  exists e, prepare ft false d dir = Ok e /\ forall p, result_place ft dir p -> name e p <> Some Dir.
Proof.
  intros [-> | ->] (R1 & R2 & _); unfold prepare.
  - assert (Q : forall x y : bytes, x <> y -> dir ++ x <> dir ++ y) by (intros x y; apply app_neq).
    unfold maybe_create_maildir.
    destruct (ensure_ready d dir) as (d1 & E1 & _ & O1); [apply R1; cbn [In]; auto|]. rewrite E1. cbn [bind].
    assert (S : forall x, x <> [] -> dir ++ x <> dir) by (intros x Hx; apply not_eq_sym, app_self, Hx).
    destruct (ensure_ready d1 (dir ++ bs "/cur")) as (d2 & E2 & _ & O2).
    { rewrite O1 by (apply S; discriminate). apply R1; cbn [In]; auto. } rewrite E2. cbn [bind].
    destruct (ensure_ready d2 (dir ++ bs "/new")) as (d3 & E3 & _ & O3).
    { rewrite O2, O1 by (first [apply S; discriminate|apply Q; discriminate]). apply R1; cbn [In]; auto. } rewrite E3. cbn [bind].
    destruct (ensure_ready d3 (dir ++ bs "/tmp")) as (d4 & E4 & _ & O4).
    { rewrite O3, O2, O1 by (first [apply S; discriminate|apply Q; discriminate]). apply R1; cbn [In]; auto. } rewrite E4. cbn [bind].
    eexists. split; [reflexivity|]. intros p HP.
    assert (N4 : name d4 p <> Some Dir).
    { assert (exists y, p = dir ++ y /\ y <> [] /\ y <> bs "/cur" /\ y <> bs "/new" /\ y <> bs "/tmp") as (y & -> & Y0 & Y1 & Y2 & Y3).
      { destruct HP as [(n & A & B & ->)|(n & A & B & ->)]; rewrite <- app_assoc; (destruct n as [|c n]; [congruence|]);
          eexists; split; [reflexivity| |reflexivity|]; (split; [discriminate|split; [discriminate|split; discriminate]]). }
      rewrite O4, O3, O2, O1 by (first [apply S; assumption|apply Q; assumption]). apply R2. exact HP. }
    assert (CL : forall which e dd, name e p <> Some Dir -> name (clear_dir which e dd) p <> Some Dir).
    { intros which e dd H. unfold clear_dir. destruct (stat_node e dd) as [[| |]|]; try exact H. cbn [name].
      destruct (name_in dd p) as [n|]; [|exact H]. destruct (which n); [|exact H]. destruct (name e p) as [[| |]|]; congruence. }
    unfold clear_maildir_subfolder. now apply CL, CL.
  - destruct (ensure_ready d dir) as (d1 & E1 & _ & O1); [apply R1; cbn [In]; auto|]. rewrite E1. cbn [bind].
    eexists. split; [reflexivity|]. intros p HP.
    assert (N1 : name d1 p <> Some Dir).
    { rewrite O1; [now apply R2|]. destruct HP as (n & _ & ->). apply not_eq_sym, app_self. discriminate. }
    unfold clear_mh_folder, clear_dir. destruct (stat_node d1 dir) as [[| |]|]; try exact N1. cbn [name].
    destruct (name_in dir p) as [n|]; [|exact N1]. destruct (valid_mh_filename_p n); [|exact N1]. destruct (name d1 p) as [[| |]|]; congruence.
Qed.
Lemma ready_real ft d dir : folder_ready ft d dir -> folder_real ft d dir.
Proof. intros (R & _ & _). destruct ft; cbn [folder_real]; auto. intros t. destruct (R (dir ++ bs "/cur")) as [E|E]; [cbn [In]; auto|congruence|congruence]. Qed.

Lemma short_list (l : list N) n : NoDup l -> (forall i, In i l -> i < n) -> N.of_nat (length l) <= n.
Proof.
  intros ND H. assert (length l <= length (map N.of_nat (seq 0 (N.to_nat n))))%nat.
  { apply NoDup_incl_length; [exact ND|]. intros i Hi. apply H in Hi. apply in_map_iff. exists (N.to_nat i). split; [lia|]. apply in_seq. lia. }
  rewrite map_length, seq_length in H0. lia.
Qed.

Lemma message_in db i x : message db i = Some x -> In x (msgs db).
Proof. unfold message. intros H. eapply nth_error_In. exact H. Qed.

Section Top.
Context (csum : bytes -> bytes) (expand : bytes -> bytes -> option bytes) (imap : bytes -> option bytes) (hard : bool).
Context (sd : bytes -> option (option Z * option Z)) (hashf : N -> bytes -> N) (db : database) (old F : bytes) (r : read_db) (ft : folder_type) (dir : bytes) (d : disc).
Context (OK : db_ok hashf db) (EW : write_database db old = Ok F) (EO : open_db F = Ok r) (DO : disc_ok d)
  (SMALL : places_small db) (MAPS : maps_small expand d) (APART : mail_apart ft dir d db).
Context (qsort : option (list N -> list N)) (PERM : forall q l, qsort = Some q -> Permutation l (q l)).

Definition ordered (l : list N) : list N := match qsort with Some q => q l | None => l end.
Lemma results_ok threads args l : search sd F r threads args = Ok l ->
  NoDup (ordered l) /\ (forall i, In i (ordered l) <-> In i l) /\ n_msgs db < 2 ^ 31 /\ N.of_nat (length (ordered l)) <= n_msgs db /\
  (forall i, In i (ordered l) -> exists x, message db i = Some x /\ src x <> S_dead).
Proof.
  intros H. pose proof (opened_view _ _ _ _ _ OK EW EO) as V. destruct (search_live _ _ _ _ _ _ H) as (A & B & _).
  apply sorted_NoDup in A.
  assert (PM : Permutation l (ordered l)) by (unfold ordered; destruct qsort; [now apply PERM|apply Permutation_refl]).
  assert (ND : NoDup (ordered l)) by (eapply Permutation_NoDup; eassumption).
  assert (IN : forall i, In i (ordered l) <-> In i l).
  { intros i. split; apply Permutation_in; [apply Permutation_sym|]; exact PM. }
  split; [exact ND|]. split; [exact IN|]. split; [exact (v_lim _ _ _ V)|].
  assert (LT : forall i, In i (ordered l) -> i < n_msgs db).
  { intros i Hi. apply IN in Hi. destruct (B i Hi) as [X _]. now rewrite (v_n _ _ _ V) in X. }
  split; [now apply short_list|].
  intros i Hi. pose proof (LT i Hi) as L. apply IN in Hi. destruct (B i Hi) as (_ & ty & T1 & T2).
  destruct (message db i) as [x|] eqn:E.
  - exists x. split; [reflexivity|]. intros X. destruct (type_of db F r (out_written _ _ _ _ _ OK EW EO) i x E) as [T _]. rewrite T in T1.
    injection T1 as <-. apply T2. rewrite X. reflexivity.
  - exfalso. unfold message in E. apply nth_error_None in E. unfold n_msgs in L. lia.
Qed.

Theorem folder_main threads args l : ft = FT_maildir \/ ft = FT_mh -> folder_ready ft d dir -> search sd F r threads args = Ok l ->
  exists o ps, search_top csum expand imap hard sd qsort threads false F dir args ft d = Ok (o, status (ordered l)) /\
    Forall2 (fun i p => exists m, message db i = Some m /\ shows_message csum expand d db imap hard m (o_disc o) p /\
      (ft = FT_maildir -> maildir_entry dir m p)) (ordered l) ps /\
    NoDup ps /\ Forall (result_place ft dir) ps /\ (forall p, result_place ft dir p -> name (o_disc o) p <> None -> In p ps) /\
    says_matched (N.of_nat (length (ordered l))) (o_stdout o) /\
    (o_warned o = true <-> exists i m, In i l /\ message db i = Some m /\ changed csum expand d db m).
Proof.
  intros HF RD HS. destruct (results_ok threads args l HS) as (ND & IN & LIM & LL & LIVE).
  destruct (prepare_ready ft d dir HF RD) as (e & EP & NDIR). destruct (prepare_kept ft d dir e EP DO (ready_real _ _ _ RD)) as (K1 & O1 & F1 & _).
  assert (NONE : forall p, result_place ft dir p -> name e p = None) by (intros p Hp; destruct (F1 p Hp) as [X|X]; [exact X|]; exfalso; exact (NDIR p Hp X)).
  set (f := match ft with FT_maildir => fun d0 (_ : N) i => to_maildir csum expand imap hard F r dir d0 i | _ => to_mh csum expand imap hard F r dir end).
  pose proof (out_written _ _ _ _ _ OK EW EO) as VIEW.
  destruct (loop_shows f (place_of ft dir) (in_match_folder ft dir) d
      (fun i e p => shown csum expand imap hard d db i e p /\ (ft = FT_maildir -> exists x, message db i = Some x /\ p = maildir_name dir i x))
      (alarm csum expand d db) (ordered l))
    with (l := ordered l) (k := 0%nat) (d := e) (w := false) as (e' & w' & ps & E1 & S1 & PL & K2 & OK2 & NP & W1).
  - intros i a b p Q [(x & X1 & X2) XM] KQ NQ OA. split; [|exact XM]. exists x. split; [exact X1|]. eapply shows_stable; eassumption.
  - intros d1 k i Hk KD OD FR. destruct (LIVE i ltac:(eapply nth_error_In; exact Hk)) as (x & HM & HX).
    assert (HL : N.of_nat k + 1 < 2 ^ 31).
    { assert ((k < length (ordered l))%nat) by (apply nth_error_Some; congruence). lia. }
    assert (G : exists p, place_of ft dir (N.of_nat k) i p /\ f d1 (N.of_nat k) i = put csum expand imap hard F r d1 i x p /\
                          (ft = FT_maildir -> exists x, message db i = Some x /\ p = maildir_name dir i x)).
    { unfold f. destruct HF as [-> | ->].
      - exists (maildir_name dir i x). split; [do 4 eexists; reflexivity|]. split; [|eauto]. apply to_maildir_put with (db := db); try assumption.
      - exists (mh_name_at dir (N.of_nat k)). split; [reflexivity|]. split; [|discriminate]. apply to_mh_put with (db := db); assumption. }
    destruct G as (p & GP & GE & GM).
    destruct (put_ok csum expand imap hard ft dir d db F r DO VIEW LIM SMALL MAPS APART d1 i x p HM HX KD OD (FR p GP)) as (d' & w & P1 & P2 & P3 & P4 & P5).
    { apply result_in_folder. eapply place_of_place; eassumption. }
    exists d', w, p. rewrite GE. split; [exact P1|]. split; [exact GP|]. split; [exact P2|]. split; [exact P3|]. split; [exact (conj P4 GM)|]. rewrite P5.
    unfold alarm. split; [eauto|]. intros (x' & A & B). rewrite HM in A. injection A as <-. exact B.
  - intros ii i p Hp. apply result_in_folder. eapply place_of_place; eassumption.
  - intros ii i jj j p. apply (place_of_apart csum expand imap).
  - exact ND.
  - reflexivity.
  - exact K1.
  - exact O1.
  - intros j i p _ Hp. apply NONE. eapply place_of_place; eassumption.
  - exists {| o_disc := e'; o_stdout := matched (ordered l); o_warned := w' |}, ps. split.
    + unfold search_top. rewrite EO. cbn [bind]. rewrite EP. cbn [bind]. rewrite HS. cbn [bind]. fold (ordered l).
      change (N.of_nat 0) with 0 in E1.
      assert (EQ : output csum expand imap hard F r ft dir e (ordered l) = Ok {| o_disc := e'; o_stdout := matched (ordered l); o_warned := w' |}).
      { unfold f in E1. destruct HF as [-> | ->]; cbn [output]; rewrite E1; reflexivity. }
      rewrite EQ. reflexivity.
    + cbn [o_disc o_stdout o_warned]. split.
      { eapply forall2_impl; [|exact S1]. intros i p [(x & X1 & X2) XM]. exists x. split; [exact X1|]. split; [exact X2|].
        intros HM. destruct (XM HM) as (x' & X3 & ->). rewrite X1 in X3. injection X3 as <-. eapply maildir_name_entry; eassumption. }
      split; [exact NP|].
      assert (RP : Forall (result_place ft dir) ps).
      { apply Forall_forall. intros p Hp. apply In_nth_error in Hp as (j & Hj). destruct (PL j p Hj) as (i & _ & B). eapply place_of_place; eassumption. }
      split; [exact RP|]. split; [|split; [apply matched_says|]].
      * intros p Hp HN. destruct (in_dec (list_eq_dec N.eq_dec) p ps) as [X|X]; [exact X|]. exfalso. apply HN. rewrite (proj1 K2); auto.
      * rewrite W1. split.
        -- intros [X|(i & A & x & B & C)]; [discriminate|]. exists i, x. split; [now apply IN|]. auto.
        -- intros (i & x & A & B & C). right. exists i. split; [now apply IN|]. exists x. auto.
Qed.

(* mbox and raw *)
Lemma each_text_ok (f : N -> res (bytes * bool)) (good : N -> bytes -> Prop) (al : N -> Prop) : forall l,
  (forall i, In i l -> exists b w, f i = Ok (b, w) /\ good i b /\ (w = true <-> al i)) ->
  exists bs w, each_text f l = Ok (concat bs, w) /\ Forall2 good l bs /\ (w = true <-> exists i, In i l /\ al i).
Proof.
  induction l as [|i l IH]; intros H.
  - exists [], false. split; [reflexivity|]. split; [constructor|]. split; [discriminate|]. intros (i & [] & _).
  - destruct (H i (or_introl eq_refl)) as (b & w & E & G & W). destruct IH as (bs & w' & E' & G' & W'); [intros j Hj; apply H; now right|].
    exists (b :: bs), (w || w'). cbn [each_text concat]. rewrite E. cbn [bind]. rewrite E'. cbn [bind]. split; [reflexivity|]. split; [now constructor|].
    rewrite orb_true_iff, W, W'. split.
    + intros [A|(j & A & B)]; [exists i; split; [now left|exact A]|exists j; split; [now right|exact B]].
    + intros (j & [<-|A] & B); [auto|right; eauto].
Qed.
Lemma mbox_main threads args l : ft = FT_mbox -> folder_ready ft d dir -> search sd F r threads args = Ok l ->
  exists o ino bs, search_top csum expand imap hard sd qsort threads false F dir args ft d = Ok (o, status (ordered l)) /\
    name (o_disc o) dir = Some (File ino) /\ data (o_disc o) ino = concat bs /\
    Forall2 (fun i b => exists m, message db i = Some m /\ record_of csum expand d db imap m b) (ordered l) bs /\
    says_matched (N.of_nat (length (ordered l))) (o_stdout o) /\
    (o_warned o = true <-> exists i m, In i l /\ message db i = Some m /\ changed csum expand d db m).
Proof.
  intros HF RD HS. destruct (results_ok threads args l HS) as (ND & IN & LIM & LL & LIVE).
  destruct (prepare_kept FT_mbox d dir (unlink d dir) eq_refl DO Logic.I) as (K1 & O1 & _ & F1). specialize (F1 eq_refl).
  assert (E1 : name (unlink d dir) dir = None).
  { destruct F1 as [X|X]; [exact X|]. exfalso. destruct RD as (_ & _ & RD). specialize (RD HF). unfold unlink in X.
    destruct (name d dir) as [[i|t|]|] eqn:E; try congruence; rewrite name_set_same in X; discriminate. }
  set (d1 := {| name := name (set_name (unlink d dir) dir (Some (File (fresh (unlink d dir))))); data := data (set_data (unlink d dir) (fresh (unlink d dir)) []); fresh := fresh (unlink d dir) + 1 |}).
  assert (K2 : kept (in_match_folder ft dir) d d1).
  { rewrite HF. eapply kept_trans; [exact K1|]. split; [|split].
    - intros p Hp. cbn [in_match_folder] in Hp. unfold d1. cbn [name]. now apply name_set_other.
    - intros i Hi. unfold d1. cbn. destruct (i =? fresh (unlink d dir)) eqn:X; [apply N.eqb_eq in X; lia|reflexivity].
    - unfold d1. cbn. lia. }
  pose proof (out_written _ _ _ _ _ OK EW EO) as VIEW.
  destruct (each_text_ok (to_mbox csum expand imap F r d1) (fun i b => exists m, message db i = Some m /\ record_of csum expand d db imap m b)
    (fun i => exists m, message db i = Some m /\ changed csum expand d db m) (ordered l)) as (bs & w & ET & GT & WT).
  - intros i Hi. destruct (LIVE i Hi) as (x & HM & HX). pose proof (message_in db i x HM) as HIN.
    destruct (type_of db F r VIEW i x HM) as [T _]. destruct (VIEW i x HM) as [_ PV _]. unfold to_mbox. rewrite T. cbn [bind].
    assert (CN : (forall fi mi, src x <> S_mbox fi mi) -> (false = true <-> exists m, message db i = Some m /\ changed csum expand d db m)).
    { intros H. split; [discriminate|]. intros (m & A & B). rewrite HM in A. injection A as <-. now apply (changed_not csum expand d db x H). }
    destruct (src x) as [|q mt sz|q|fi mi] eqn:ES; [congruence|..]; cbn [type_code].
    + change (1 =? 1) with true. cbv iota. rewrite (PV q) by eauto. cbn [bind]. unfold append_file_to_mbox.
      assert (AP : apart ft dir d q) by (eapply APART; [exact HIN|left; eauto]).
      rewrite (proj2 (kept_apart ft dir d d1 q K2 DO AP) expand). destruct (MAPS q) as [o Ho]. rewrite Ho. cbn [bind].
      do 2 eexists. split; [reflexivity|]. split; [|apply CN; congruence]. exists x. split; [exact HM|]. unfold record_of. rewrite ES, Ho. destruct o; reflexivity.
    + change (3 =? 1) with false. change (3 =? 3) with true. cbv iota. rewrite (PV q) by eauto. cbn [bind].
      do 2 eexists. split; [reflexivity|]. split; [|apply CN; congruence]. exists x. split; [exact HM|]. unfold record_of. rewrite ES. destruct (imap q); reflexivity.
    + change (2 =? 1) with false. change (2 =? 3) with false. change (2 =? 2) with true. cbv iota. unfold append_mboxmsg_to_mbox.
      destruct (valid_now csum expand imap ft dir d db F r DO VIEW LIM SMALL MAPS APART d1 i x K2 HM ltac:(eauto)) as (v & EV & V1 & V2). rewrite EV. cbn [bind].
      assert (CB : changed csum expand d db x <-> exists m, message db i = Some m /\ changed csum expand d db m).
      { split; [eauto|]. intros (m & A & B). rewrite HM in A. now injection A as <-. }
      destruct v as [| |w0 t0]; (do 2 eexists; split; [reflexivity|]; split; [exists x; split; [exact HM|]; unfold record_of; rewrite ES|rewrite <- CB, <- V2; split; (discriminate || reflexivity)]).
      * split; [|auto]. intros w t U. apply V1 in U. discriminate.
      * split; [|auto]. intros w t U. apply V1 in U. discriminate.
      * split; [|intros N; exfalso; eapply N; apply V1; reflexivity]. intros w t U. apply V1 in U. injection U as <- <-. reflexivity.
  - set (ino := fresh (unlink d dir)) in *.
    exists {| o_disc := set_data d1 ino (concat bs); o_stdout := matched (ordered l); o_warned := w |}, ino, bs. split.
    + unfold search_top. rewrite EO. cbn [bind]. rewrite HF in *. cbn [prepare bind]. rewrite HS. cbn [bind]. fold (ordered l).
      cbn [output]. rewrite open_w_free by exact F1. rewrite E1. fold ino. fold d1. cbv zeta.
      rewrite ET. cbn [bind]. replace (data d1 ino) with (@nil N); [reflexivity|].
      unfold d1, ino. cbn. now rewrite N.eqb_refl.
    + cbn [o_disc o_stdout o_warned]. split; [unfold d1; cbn; now rewrite bytes_eqb_refl|]. split; [cbn; now rewrite N.eqb_refl|]. split; [exact GT|]. split; [apply matched_says|].
      rewrite WT. split; [intros (i & A & m & B & C); exists i, m; split; [now apply IN|auto]|intros (i & m & A & B & C); exists i; split; [now apply IN|eauto]].
Qed.
Lemma raw_main threads args l : ft = FT_raw -> search sd F r threads args = Ok l ->
  (forall m w st ln ck, In m (msgs db) -> indexed_at db m w st ln ck -> st + ln < 2 ^ 31) ->
  exists o bs, search_top csum expand imap hard sd qsort threads false F dir args ft d = Ok (o, status (ordered l)) /\
    o_disc o = d /\ o_stdout o = concat bs /\ Forall2 (fun i b => exists m, message db i = Some m /\ raw_line db m b) (ordered l) bs.
Proof.
  intros HF HS EN. destruct (results_ok threads args l HS) as (ND & IN & LIM & LL & LIVE). pose proof (out_written _ _ _ _ _ OK EW EO) as VIEW.
  destruct (each_text_ok (fun i => let! s := to_raw F r i in Ok (s, false)) (fun i b => exists m, message db i = Some m /\ raw_line db m b)
    (fun i => False) (ordered l)) as (bs & w & ET & GT & WT).
  - intros i Hi. destruct (LIVE i Hi) as (x & HM & HX). pose proof (message_in db i x HM) as HIN.
    destruct (type_of db F r VIEW i x HM) as [T _]. destruct (VIEW i x HM) as [_ PV PB]. unfold to_raw. rewrite T. cbn [bind].
    assert (FF : false = true <-> False) by (split; [discriminate|tauto]).
    destruct (src x) as [|q mt sz|q|fi mi] eqn:ES; [congruence|..]; cbn [type_code].
    + change (1 =? 1) with true. cbn [orb]. rewrite (PV q) by eauto. cbn [bind]. do 2 eexists. split; [reflexivity|]. split; [|exact FF].
      exists x. split; [exact HM|]. unfold raw_line. now rewrite ES.
    + change (3 =? 1) with false. change (3 =? 3) with true. cbn [orb]. rewrite (PV q) by eauto. cbn [bind]. do 2 eexists. split; [reflexivity|]. split; [|exact FF].
      exists x. split; [exact HM|]. unfold raw_line. now rewrite ES.
    + change (2 =? 1) with false. change (2 =? 3) with false. change (2 =? 2) with true. cbn [orb]. cbv iota.
      destruct (SMALL x fi mi HIN ES) as (w & st & ln & ck & IX & L1 & L2). pose proof (EN x w st ln ck HIN IX) as L3.
      destruct (PB _ _ _ _ IX) as (fi' & mi' & off & po & co & ES' & E1 & E2 & E3 & E4 & E5 & E6 & E7 & E8).
      rewrite E5. cbn [bind]. rewrite E6. cbn [bind]. apply N.leb_gt in L1, L2, L3. rewrite L1, L2, L3. cbn [orb].
      rewrite E1. cbn [bind]. rewrite E2. cbn [bind]. rewrite E3. cbn [bind]. rewrite E4. cbn [bind].
      do 2 eexists. split; [reflexivity|]. split; [|exact FF]. exists x. split; [exact HM|]. unfold raw_line. rewrite ES.
      exists w, st, ln, ck, (show_int st), (show_int (st + ln)). split; [exact IX|]. split; [apply show_int_written|]. split; [apply show_int_written|reflexivity].
  - exists {| o_disc := d; o_stdout := concat bs; o_warned := false |}, bs. split; [|auto].
    unfold search_top. rewrite EO. cbn [bind]. rewrite HF in *. cbn [prepare bind]. rewrite HS. cbn [bind]. fold (ordered l). cbn [output]. rewrite ET. reflexivity.
Qed.
End Top.
