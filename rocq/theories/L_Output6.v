(* What the match folder contains after a search. *)
From Coq Require Import Permutation Sorted.
From Verif Require Import Base M_DbFile S_DbFile M_Search M_Paths M_Output S_Search S_Output L_TokTable L_DbFile5 L_Search L_Search6 L_Output L_Output2 L_Output3 L_Output4 L_Output5.
Local Open Scope N_scope.

Lemma kept_apart ft dir d e p : kept (in_match_folder ft dir) d e -> disc_ok d -> apart ft dir d p ->
  name e p = name d p /\ forall expand, map_file expand e p = map_file expand d p.
Proof.
  intros (A & B & C) OK AP. split; [apply A; apply AP; constructor|]. intros expand. apply map_file_same; try assumption.
  intros q Hq. apply A. now apply AP.
Qed.

Section Steps.
Context (csum : bytes -> bytes) (expand : bytes -> bytes -> option bytes) (imap : bytes -> option bytes) (hard : bool).
Context (ft : folder_type) (dir : bytes) (d0 : disc) (db : database) (F : bytes) (r : read_db).
Context (OK0 : disc_ok d0) (VIEW : forall i x, message db i = Some x -> out_facts F r db i x)
  (LIM : n_msgs db < 2 ^ 31) (SMALL : places_small db) (MAPS : maps_small expand d0) (APART : mail_apart ft dir d0 db).
Local Notation P := (in_match_folder ft dir).

Lemma message_lim i x : message db i = Some x -> i < 2 ^ 31 /\ In x (msgs db).
Proof.
  unfold message. intros H. assert ((N.to_nat i < length (msgs db))%nat) by (apply nth_error_Some; congruence).
  split; [unfold n_msgs in LIM; lia|eapply nth_error_In; exact H].
Qed.
(* The reading of a mailbox is as in the beginning. *)
Lemma now_same d x : kept P d0 d -> In x (msgs db) -> forall w t,
  (text_now expand d db x w t <-> text_now expand d0 db x w t) /\
  (unchanged csum expand d db x w t <-> unchanged csum expand d0 db x w t).
Proof.
  intros K HX w t.
  assert (T : text_now expand d db x w t <-> text_now expand d0 db x w t).
  { split; intros (st & ln & ck & b & IX & EM & E).
    - exists st, ln, ck, b. split; [exact IX|]. split; [|exact E]. rewrite <- EM. symmetry.
      apply (kept_apart ft dir d0 d w K OK0). eapply APART; [exact HX|]. right. eauto.
    - exists st, ln, ck, b. split; [exact IX|]. split; [|exact E]. rewrite <- EM.
      apply (kept_apart ft dir d0 d w K OK0). eapply APART; [exact HX|]. right. eauto. }
  split; [exact T|]. unfold unchanged. rewrite T. reflexivity.
Qed.
Lemma valid_now d i x : kept P d0 d -> message db i = Some x -> (exists fi mi, src x = S_mbox fi mi) ->
  exists v, get_validated_mbox_msg csum expand d F r i = Ok v /\
    (forall w t, v = V_good w t <-> unchanged csum expand d0 db x w t) /\ (v = V_bad <-> changed csum expand d0 db x).
Proof.
  intros K HM (fi & mi & ES). destruct (message_lim i x HM) as [_ HX]. destruct (SMALL x fi mi HX ES) as (w & st & ln & ck & IX & HS & HL).
  destruct (validated_spec csum expand F r db d i x (VIEW i x HM)) as (v & EV & V1 & V2 & _).
  - exists w, st, ln, ck. split; [exact IX|]. split; [exact HS|]. split; [exact HL|]. destruct (MAPS w) as [o Ho]. exists o. rewrite <- Ho.
    apply (kept_apart ft dir d0 d w K OK0). eapply APART; [exact HX|]. right. eauto.
  - exists v. split; [exact EV|]. split; [intros w' t; rewrite V1; now apply now_same|]. rewrite V2. unfold changed.
    split; intros (w' & t & A & B); exists w', t; (split; [apply (now_same d x K HX) in A || apply (now_same d x K HX); exact A|]);
      intros X; apply B; [apply (now_same d x K HX)|apply (now_same d x K HX) in X]; exact X.
Qed.
Lemma changed_src x : changed csum expand d0 db x -> exists fi mi, src x = S_mbox fi mi.
Proof. intros (w & t & (st & ln & ck & b & (fi & mi & mb & E & _) & _) & _). eauto. Qed.
Lemma changed_not x : (forall fi mi, src x <> S_mbox fi mi) -> (false = true <-> changed csum expand d0 db x).
Proof. intros H. split; [discriminate|]. intros C. apply changed_src in C as (fi & mi & E). exfalso. eapply H. exact E. Qed.

(* writing to a free name *)
Lemma write_new d p b : name d p = None -> disc_ok d -> kept (only p) d (write_file d p b) /\ disc_ok (write_file d p b) /\
  exists i, i < fresh (write_file d p b) /\ name (write_file d p b) p = Some (File i) /\ data (write_file d p b) i = b.
Proof.
  intros E OK. assert (FR : free_name d p) by (left; exact E). destruct (write_file_kept d p b FR OK) as [A B]. split; [exact A|]. split; [exact B|].
  rewrite (write_file_free d p b FR), E. exists (fresh d). cbn. rewrite bytes_eqb_refl, N.eqb_refl. split; [lia|]. auto.
Qed.
(* what one name of disc e shows; inodes exist *)
Definition shown (i : N) (e : disc) (p : bytes) : Prop :=
  exists x, message db i = Some x /\ shows_message csum expand d0 db imap hard x e p.
Definition alarm (i : N) : Prop := exists x, message db i = Some x /\ changed csum expand d0 db x.
Lemma shows_stable x e e' p (Q : bytes -> Prop) : shows_message csum expand d0 db imap hard x e p -> kept Q e e' -> ~ Q p -> disc_ok e ->
  shows_message csum expand d0 db imap hard x e' p.
Proof.
  intros S (A & B & C) NQ OK. specialize (A p NQ). unfold shows_message in *. destruct (src x) as [|q mt sz|q|fi mi].
  - exact S.
  - rewrite A. exact S.
  - destruct (imap q); [|now rewrite A]. destruct S as (i & S1 & S2). exists i. rewrite A. split; [exact S1|]. rewrite B; [exact S2|]. eapply OK. exact S1.
  - destruct S as [S1 S2]. rewrite A. split; [|exact S2]. intros w t U. destruct (S1 w t U) as (i & X1 & X2). exists i. split; [exact X1|]. rewrite B; [exact X2|].
    eapply OK. exact X1.
Qed.
Lemma symlink_new d q p : name d p = None -> disc_ok d -> kept P d0 d -> apart ft dir d0 q -> q <> p ->
  name (create_symlink hard d q p) p = (if hard then match name d0 q with Some Dir => None | n => n end else Some (Link q)).
Proof.
  intros E OK K AP NE. unfold create_symlink. destruct hard.
  - unfold link. rewrite E, (proj1 (kept_apart ft dir d0 d q K OK0 AP)).
    destruct (name d0 q) as [[i|t|]|]; cbn [snd]; try exact E; apply name_set_same.
  - unfold symlink. rewrite E. unfold link. rewrite name_set_same. cbn [snd]. apply name_set_same.
Qed.

(* One result, in a maildir or MH folder: any function that picks a name by place and then does the same. *)
Definition put (d : disc) (i : N) (x : msg) (p : bytes) : res (disc * bool) :=
  match src x with
  | S_file q _ _ => Ok (create_symlink hard d q p, false)
  | S_imap q => Ok (fetch_to imap d q p, false)
  | S_mbox _ _ => try_copy_to_path csum expand d F r i p
  | S_dead => Ok (d, false)
  end.
Lemma put_ok d i x p : message db i = Some x -> src x <> S_dead -> kept P d0 d -> disc_ok d -> name d p = None -> P p ->
  exists d' w, put d i x p = Ok (d', w) /\ kept (only p) d d' /\ disc_ok d' /\ shown i d' p /\ (w = true <-> changed csum expand d0 db x).
Proof.
  intros HM HD K OK E HP. destruct (message_lim i x HM) as [HL HX]. unfold put, shown.
  destruct (src x) as [|q mt sz|q|fi mi] eqn:ES; [congruence|..].
  - assert (AP : apart ft dir d0 q) by (eapply APART; [exact HX|left; eauto]).
    destruct (create_symlink_kept hard d q p OK) as [A B].
    do 2 eexists. split; [reflexivity|]. split; [exact A|]. split; [exact B|]. split.
    + exists x. split; [exact HM|]. unfold shows_message. rewrite ES. rewrite symlink_new; try assumption.
      * destruct hard; [|reflexivity]. destruct (name d0 q) as [[i'|t|]|]; reflexivity.
      * intros ->. apply (AP p); [constructor|exact HP].
    + apply changed_not. congruence.
  - unfold fetch_to. destruct (imap q) as [t|] eqn:EI.
    + destruct (write_new d p t E OK) as (A & B & j & C1 & C2 & C3). do 2 eexists. split; [reflexivity|]. split; [exact A|]. split; [exact B|]. split.
      * exists x. split; [exact HM|]. unfold shows_message. rewrite ES, EI. eauto.
      * apply changed_not. congruence.
    + do 2 eexists. split; [reflexivity|]. split; [apply kept_refl|]. split; [exact OK|]. split.
      * exists x. split; [exact HM|]. unfold shows_message. rewrite ES, EI. exact E.
      * apply changed_not. congruence.
  - destruct (valid_now d i x K HM ltac:(eauto)) as (v & EV & V1 & V2). unfold try_copy_to_path. rewrite EV. cbn [bind].
    destruct v as [| |w0 t0].
    + do 2 eexists. split; [reflexivity|]. split; [apply kept_refl|]. split; [exact OK|]. split.
      * exists x. split; [exact HM|]. unfold shows_message. rewrite ES. split; [|auto]. intros w t U. apply V1 in U. discriminate.
      * rewrite <- V2. split; discriminate.
    + do 2 eexists. split; [reflexivity|]. split; [apply kept_refl|]. split; [exact OK|]. split.
      * exists x. split; [exact HM|]. unfold shows_message. rewrite ES. split; [|auto]. intros w t U. apply V1 in U. discriminate.
      * rewrite <- V2. split; reflexivity.
    + destruct (write_new d p (source_line w0 ++ removelast t0) E OK) as (A & B & j & C1 & C2 & C3).
      do 2 eexists. split; [reflexivity|]. split; [exact A|]. split; [exact B|]. split.
      * exists x. split; [exact HM|]. unfold shows_message. rewrite ES. split.
        -- intros w t U. apply V1 in U. injection U as <- <-. eauto.
        -- intros N. exfalso. eapply N. apply V1. reflexivity.
      * rewrite <- V2. split; discriminate.
Qed.
Lemma type_of i x : message db i = Some x -> rd_msg_type F r i = Ok (type_code (src x)) /\ get_flags F r i = Ok (seen x, replied x, flagged x).
Proof.
  intros HM. destruct (VIEW i x HM) as [T _ _]. destruct (type_byte_bits x) as (B1 & B2 & B3 & B4).
  unfold rd_msg_type, get_flags. rewrite T. cbn [bind]. now rewrite B1, B2, B3, B4.
Qed.
Definition goes_new (x : msg) : bool :=
  match src x with S_file q _ _ => looks_like_maildir_new_p q | S_mbox _ _ => negb (seen x) | _ => false end.
Definition maildir_name (i : N) (x : msg) : bytes := (dir ++ sub_of (goes_new x)) ++ bs "/" ++ maildir_base i (seen x) (replied x) (flagged x).
Lemma maildir_name_entry i x : maildir_entry dir x (maildir_name i x).
Proof.
  exists (if goes_new x then bs "/new/" else bs "/cur/"), (bs "123456789." ++ show_int i ++ bs ".mairix"). split; [|split; [|split]].
  - unfold shown_new, goes_new. destruct (src x) as [|q mt sz|q|fi mi].
    + right. auto.
    + destruct (looks_like_maildir_new_p q) eqn:E.
      * left. split; [now apply looks_new_ok|reflexivity].
      * right. split; [|reflexivity]. intros X. apply looks_new_ok in X. congruence.
    + right. auto.
    + destruct (seen x); [right|left]; cbn [negb]; split; congruence.
  - rewrite !in_app_iff. intros [H|[H|H]]; [|revert H; apply digits_no_slash; apply show_int_ok|]; revert H; cbn; intuition discriminate.
  - apply base_no_colon.
  - unfold maildir_name, maildir_base, flag_tail, sub_of. rewrite <- !app_assoc. f_equal.
    replace (flagged x || replied x || seen x) with (seen x || replied x || flagged x) by (destruct (seen x), (replied x), (flagged x); reflexivity).
    destruct (goes_new x); reflexivity.
Qed.
Lemma to_maildir_put d i x : message db i = Some x -> src x <> S_dead ->
  to_maildir csum expand imap hard F r dir d i = put d i x (maildir_name i x).
Proof.
  intros HM HD. destruct (message_lim i x HM) as [HL _]. destruct (type_of i x HM) as [T1 T2]. destruct (VIEW i x HM) as [_ PV _].
  unfold to_maildir. rewrite T2. cbn [bind]. rewrite T1. cbn [bind]. unfold put, maildir_name, goes_new.
  destruct (src x) as [|q mt sz|q|fi mi] eqn:ES; [congruence|..]; cbn [type_code].
  - change (1 =? 1) with true. cbv iota. rewrite (PV q) by eauto. cbn [bind]. rewrite maildir_path_ok by assumption. reflexivity.
  - change (3 =? 1) with false. change (3 =? 3) with true. cbv iota. rewrite maildir_path_ok by assumption. cbn [bind]. rewrite (PV q) by eauto. reflexivity.
  - change (2 =? 1) with false. change (2 =? 3) with false. change (2 =? 2) with true. cbv iota. rewrite maildir_path_ok by assumption. reflexivity.
Qed.
Definition mh_name_at (ii : N) : bytes := dir ++ bs "/" ++ show_int (ii + 1).
Lemma to_mh_put d ii i x : ii + 1 < 2 ^ 31 -> message db i = Some x -> src x <> S_dead ->
  to_mh csum expand imap hard F r dir d ii i = put d i x (mh_name_at ii).
Proof.
  intros HI HM HD. destruct (type_of i x HM) as [T1 T2]. destruct (VIEW i x HM) as [_ PV _].
  unfold to_mh. rewrite T1. cbn [bind]. unfold put, mh_name_at.
  destruct (src x) as [|q mt sz|q|fi mi] eqn:ES; [congruence|..]; cbn [type_code].
  - change (1 =? 1) with true. cbv iota. rewrite mh_path_ok by assumption. cbn [bind]. rewrite (PV q) by eauto. reflexivity.
  - change (3 =? 1) with false. change (3 =? 3) with true. cbv iota. rewrite mh_path_ok by assumption. cbn [bind]. rewrite (PV q) by eauto. reflexivity.
  - change (2 =? 1) with false. change (2 =? 3) with false. change (2 =? 2) with true. cbv iota. rewrite mh_path_ok by assumption. reflexivity.
Qed.
End Steps.

(* The loop. *)
Section Loop.
Context (f : disc -> N -> N -> res (disc * bool)) (place : N -> N -> bytes -> Prop) (P : bytes -> Prop) (d0 : disc).
Context (shown : N -> disc -> bytes -> Prop) (alarm : N -> Prop) (all : list N).
Hypothesis stable : forall i e e' p (Q : bytes -> Prop), shown i e p -> kept Q e e' -> ~ Q p -> disc_ok e -> shown i e' p.
Hypothesis step : forall d k i, nth_error all k = Some i -> kept P d0 d -> disc_ok d -> (forall p, place (N.of_nat k) i p -> name d p = None) ->
  exists d' w p, f d (N.of_nat k) i = Ok (d', w) /\ place (N.of_nat k) i p /\ kept (only p) d d' /\ disc_ok d' /\ shown i d' p /\ (w = true <-> alarm i).
Hypothesis place_P : forall ii i p, place ii i p -> P p.
Hypothesis apart_places : forall ii i jj j p, place ii i p -> place jj j p -> ii = jj \/ i = j.
Hypothesis ND : NoDup all.
Lemma loop_shows : forall l k d w, (forall j, nth_error l j = nth_error all (k + j)) -> kept P d0 d -> disc_ok d ->
  (forall j i p, nth_error all (k + j) = Some i -> place (N.of_nat (k + j)) i p -> name d p = None) ->
  exists e w' ps, each_result f d w (N.of_nat k) l = Ok (e, w') /\ Forall2 (fun i p => shown i e p) l ps /\
    (forall j p, nth_error ps j = Some p -> exists i, nth_error l j = Some i /\ place (N.of_nat (k + j)) i p) /\
    kept (fun p => In p ps) d e /\ disc_ok e /\ NoDup ps /\ (w' = true <-> w = true \/ exists i, In i l /\ alarm i).
Proof.
  induction l as [|i l IH]; intros k d w SUB K OK FREE.
  - exists d, w, []. split; [reflexivity|]. split; [constructor|]. split; [intros [|j] p H; discriminate|]. split; [apply kept_refl|].
    split; [exact OK|]. split; [constructor|]. split; [auto|]. intros [H|(i & [] & _)]. exact H.
  - assert (HI : nth_error all k = Some i) by (pose proof (SUB 0%nat) as X; rewrite Nat.add_0_r in X; now rewrite <- X).
    destruct (step d k i HI K OK) as (d1 & w1 & p1 & E1 & PL & K1 & OK1 & S1 & W1).
    { intros p Hp. apply (FREE 0%nat i p); now rewrite Nat.add_0_r. }
    assert (K' : kept P d0 d1).
    { eapply kept_trans; [exact K|]. eapply kept_weaken; [|exact K1]. intros q ->. eapply place_P. exact PL. }
    destruct (IH (S k) d1 (w || w1)) as (e & w' & ps & E2 & F2 & PS & K2 & OK2 & ND2 & W2).
    + intros j. replace (S k + j)%nat with (k + S j)%nat by lia. exact (SUB (S j)).
    + exact K'.
    + exact OK1.
    + intros j i' p Hn Hp. replace (S k + j)%nat with (k + S j)%nat in * by lia. rewrite (proj1 K1).
      * eapply FREE; eassumption.
      * intros ->. destruct (apart_places _ _ _ _ _ PL Hp) as [X|X]; [lia|]. subst i'. rewrite <- HI in Hn.
        apply (proj1 (NoDup_nth_error all) ND) in Hn; [lia|]. apply nth_error_Some. congruence.
    + assert (NP : ~ In p1 ps).
      { intros X. apply In_nth_error in X as (j & X). destruct (PS j p1 X) as (i' & Hi & Hp).
        destruct (apart_places _ _ _ _ _ PL Hp) as [Y|Y]; [lia|]. subst i'.
        assert (Hn : nth_error all (k + S j) = Some i) by (rewrite <- (SUB (S j)); exact Hi). rewrite <- HI in Hn.
        apply (proj1 (NoDup_nth_error all) ND) in Hn; [lia|]. apply nth_error_Some. congruence. }
      exists e, w', (p1 :: ps). split; [|split; [|split; [|split; [|split; [|split]]]]].
      * cbn [each_result]. rewrite E1. cbn [bind]. replace (N.of_nat k + 1) with (N.of_nat (S k)) by lia. exact E2.
      * constructor; [|exact F2]. eapply stable; [exact S1|exact K2|exact NP|exact OK1].
      * intros [|j] p H; cbn [nth_error] in *.
        -- injection H as <-. exists i. split; [reflexivity|]. now rewrite Nat.add_0_r.
        -- destruct (PS j p H) as (i' & A & B). exists i'. split; [exact A|]. now replace (k + S j)%nat with (S k + j)%nat by lia.
      * eapply kept_trans; (eapply kept_weaken; [|eassumption]).
        -- intros q ->. now left.
        -- intros q X. now right.
      * exact OK2.
      * constructor; assumption.
      * rewrite W2, orb_true_iff, W1. split.
        -- intros [[A|A]|(i' & A & B)]; [auto|right; exists i; split; [now left|exact A]|right; exists i'; split; [now right|exact B]].
        -- intros [A|(i' & [<-|A] & B)]; [auto|auto|right; eauto].
Qed.
End Loop.
