(* The words of one message, and of the new files. *)
From Coq Require Import Permutation Sorted.
From Verif Require Import Base M_Encoding M_TokTable S_TokTable M_DbFile S_DbFile M_Search S_Search M_Thread M_Tokens S_Tokens M_Update S_Update L_Thread L_Purge L_Tokens2 L_Update2.
Local Open Scope N_scope.

Record tabs_good (W : world) (n : N) (db : database) : Prop := {
  tg_tab : forall p, tab_ok (w_hash W (hash_key db)) n (table db p);
  tg_ids : tab2_ok (w_hash W (hash_key db)) n (d_ids db) }.
Lemma tabs_le W n n' db : tabs_good W n db -> n <= n' -> tabs_good W n' db.
Proof. intros [A B] L. constructor; [intros p; eapply tab_le; eauto|eapply tab2_le; eauto]. Qed.

(* db' is db with the words of [cs] recorded for message i *)
Record gains (db db' : database) (i : N) (cs : list (dest * bytes)) : Prop := {
  gn_msgs : msgs db' = msgs db;
  gn_boxes : mboxen db' = mboxen db;
  gn_key : hash_key db' = hash_key db;
  gn_rec : forall p v x, recorded db' p v x <-> recorded db p v x \/ (x = i /\ exists w, In (dest_of p, w) cs /\ v = lower w);
  gn_ref : forall v x, refers db' v x <-> refers db v x \/ (x = i /\ exists own w, In (D_ids own, w) cs /\ v = lower w);
  gn_id : forall v x, has_id db' v x <-> has_id db v x \/ (x = i /\ exists w, In (D_ids true, w) cs /\ v = lower w) }.

Ltac other_tab T L := eapply tab_le; [first [exact (tg_tab _ _ _ T To)|exact (tg_tab _ _ _ T Cc)|exact (tg_tab _ _ _ T From_)|exact (tg_tab _ _ _ T Subject)|exact (tg_tab _ _ _ T Body)|exact (tg_tab _ _ _ T Attachment)]|exact L].
Ltac one_tab T L S C fld p0 :=
  destruct (tab_insert _ _ _ _ _ (tg_tab _ _ _ T p0) L S C) as (t' & E & O & R);
  cbn [table] in E, O, R;
  rewrite E; cbn [bind]; eexists; split; [reflexivity|]; split;
  [ constructor; [intros [ | | | | | ]; cbn; first [exact O|other_tab T L]|cbn; eapply tab2_le; [exact (tg_ids _ _ _ T)|exact L]]
  | constructor; [reflexivity|reflexivity|reflexivity| | |];
    [ intros p v x; destruct p; unfold recorded; cbn;
      first [ rewrite (R v x); unfold has; split; [intros [H|[-> ->]]; [now left|right; eauto 6]|intros [H|(-> & w' & [EQ|[]] & ->)]; [now left|right; injection EQ as <-; split; reflexivity]]
            | split; [now left|intros [H|(_ & w' & [EQ|[]] & _)]; [exact H|discriminate]] ]
    | intros v x; unfold refers; cbn; split; [now left|intros [H|(_ & o & w' & [EQ|[]] & _)]; [exact H|discriminate]]
    | intros v x; unfold has_id; cbn; split; [now left|intros [H|(_ & w' & [EQ|[]] & _)]; [exact H|discriminate]] ] ].

Lemma add_call_ok W n i d w db : tabs_good W n db -> n <= i + 1 -> small i -> c_string w ->
  exists db', add_call W i (d, w) db = Ok db' /\ tabs_good W (i + 1) db' /\ gains db db' i [(d, w)].
Proof.
  intros T L S C. unfold add_call. cbn [fst snd]. destruct d as [ | | | | | |own].
  - one_tab T L S C d_to To.
  - one_tab T L S C d_cc Cc.
  - one_tab T L S C d_from From_.
  - one_tab T L S C d_subject Subject.
  - one_tab T L S C d_body Body.
  - one_tab T L S C d_att Attachment.
  - destruct (tab2_insert _ _ _ _ _ own (tg_ids _ _ _ T) L S C) as (t' & E & O & R0 & R1). rewrite E. cbn [bind]. eexists. split; [reflexivity|]. split.
    + constructor; [intros [ | | | | | ]; cbn; other_tab T L|exact O].
    + constructor; [reflexivity|reflexivity|reflexivity| | |].
      * intros p v x; destruct p; unfold recorded; cbn; (split; [now left|intros [H|(_ & w' & [EQ|[]] & _)]; [exact H|discriminate]]).
      * intros v x. unfold refers. cbn. rewrite (R0 v x). unfold has0. split.
        -- intros [H|[-> ->]]; [now left|right]. split; [reflexivity|]. exists own, w. auto.
        -- intros [H|(-> & o & w' & [EQ|[]] & ->)]; [now left|right]. injection EQ as <- <-. auto.
      * intros v x. unfold has_id. cbn. rewrite (R1 v x). unfold has1. split.
        -- intros [H|(-> & -> & ->)]; [now left|right]. split; [reflexivity|]. exists w. auto.
        -- intros [H|(-> & w' & [EQ|[]] & ->)]; [now left|right]. injection EQ as <- <-. auto.
Qed.

Lemma gains_nil db i : gains db db i [].
Proof. constructor; try reflexivity; intros; (split; [now left|]); [intros [H|(_ & ? & [] & _)]; exact H|intros [H|(_ & ? & ? & [] & _)]; exact H|intros [H|(_ & ? & [] & _)]; exact H]. Qed.
Lemma gains_cons a b c i x xs : gains a b i [x] -> gains b c i xs -> gains a c i (x :: xs).
Proof.
  intros G H. constructor.
  - rewrite (gn_msgs _ _ _ _ H). apply G.
  - rewrite (gn_boxes _ _ _ _ H). apply G.
  - rewrite (gn_key _ _ _ _ H). apply G.
  - intros p v y. rewrite (gn_rec _ _ _ _ H), (gn_rec _ _ _ _ G). split.
    + intros [[A|(-> & w & [B|[]] & C)]|(-> & w & B & C)]; [now left|right|right]; (split; [reflexivity|]); exists w; (split; [|exact C]); [now left|now right].
    + intros [A|(-> & w & [B|B] & C)]; [now left; left|left; right|right]; (split; [reflexivity|]); exists w; (split; [|exact C]); [now left|exact B].
  - intros v y. rewrite (gn_ref _ _ _ _ H), (gn_ref _ _ _ _ G). split.
    + intros [[A|(-> & o & w & [B|[]] & C)]|(-> & o & w & B & C)]; [now left|right|right]; (split; [reflexivity|]); exists o, w; (split; [|exact C]); [now left|now right].
    + intros [A|(-> & o & w & [B|B] & C)]; [now left; left|left; right|right]; (split; [reflexivity|]); exists o, w; (split; [|exact C]); [now left|exact B].
  - intros v y. rewrite (gn_id _ _ _ _ H), (gn_id _ _ _ _ G). split.
    + intros [[A|(-> & w & [B|[]] & C)]|(-> & w & B & C)]; [now left|right|right]; (split; [reflexivity|]); exists w; (split; [|exact C]); [now left|now right].
    + intros [A|(-> & w & [B|B] & C)]; [now left; left|left; right|right]; (split; [reflexivity|]); exists w; (split; [|exact C]); [now left|exact B].
Qed.

Lemma add_calls_ok W i cs : small i -> forall n db, tabs_good W n db -> n <= i + 1 -> Forall (fun c => c_string (snd c)) cs ->
  exists db', add_calls W i cs db = Ok db' /\ tabs_good W (i + 1) db' /\ gains db db' i cs.
Proof.
  intros S. induction cs as [|[d w] cs IH]; intros n db T L F; cbn [add_calls].
  - exists db. split; [reflexivity|]. split; [eapply tabs_le; eauto|apply gains_nil].
  - inversion F as [|? ? F1 F2]; subst. destruct (add_call_ok W n i d w db T L S F1) as (db1 & E1 & T1 & G1). rewrite E1. cbn [bind].
    destruct (IH (i + 1) db1 T1) as (db2 & E2 & T2 & G2); [lia|exact F2|]. exists db2. split; [exact E2|]. split; [exact T2|]. eapply gains_cons; eauto.
Qed.

(* db' is db with the words of message r recorded for message i *)
Record records (W : world) (db db' : database) (i : N) (o : rfc822 -> Prop) : Prop := {
  rc_boxes : mboxen db' = mboxen db;
  rc_key : hash_key db' = hash_key db;
  rc_rec : forall p v x, recorded db' p v x <-> recorded db p v x \/ (x = i /\ exists r w, o r /\ mentions (w_alnum W) r p w /\ v = lower w);
  rc_ref : forall v x, refers db' v x <-> refers db v x \/ (x = i /\ exists r own w, o r /\ carries r own w /\ v = lower w);
  rc_id : forall v x, has_id db' v x <-> has_id db v x \/ (x = i /\ exists r w, o r /\ carries r true w /\ v = lower w) }.

Lemma index_words_ok W i r n db : world_ok W -> textual (w_alnum W) r -> small i -> tabs_good W n db -> n <= i + 1 ->
  exists db', index_words W i r db = Ok db' /\ tabs_good W (i + 1) db' /\ msgs db' = msgs db /\ records W db db' i (eq r).
Proof.
  intros WO [TX1 TX2] S T L. unfold index_words. destruct (message_exact (w_alnum W) (wo_lt W WO) (wo_gt W WO) r) as (cs & E & M & K).
  rewrite E. cbn [bind]. destruct (add_calls_ok W i cs S n db T L) as (db' & E' & T' & G).
  { apply Forall_forall. intros [d w] I. cbn. destruct d as [ | | | | | |own].
    - apply (TX1 To). apply M. exact I. 
    - apply (TX1 Cc). apply M. exact I.
    - apply (TX1 From_). apply M. exact I.
    - apply (TX1 Subject). apply M. exact I.
    - apply (TX1 Body). apply M. exact I.
    - apply (TX1 Attachment). apply M. exact I.
    - apply (TX2 own). apply K. exact I. }
  exists db'. split; [exact E'|]. split; [exact T'|]. split; [apply G|]. constructor; [apply G|apply G| | |].
  - intros p v x. rewrite (gn_rec _ _ _ _ G). split; (intros [A|(-> & B)]; [now left|right; split; [reflexivity|]]).
    + destruct B as (w & B & C). exists r, w. split; [reflexivity|]. split; [now apply M|exact C].
    + destruct B as (r' & w & <- & B & C). exists w. split; [now apply M|exact C].
  - intros v x. rewrite (gn_ref _ _ _ _ G). split; (intros [A|(-> & B)]; [now left|right; split; [reflexivity|]]).
    + destruct B as (o & w & B & C). exists r, o, w. split; [reflexivity|]. split; [now apply K|exact C].
    + destruct B as (r' & o & w & <- & B & C). exists o, w. split; [now apply K|exact C].
  - intros v x. rewrite (gn_id _ _ _ _ G). split; (intros [A|(-> & B)]; [now left|right; split; [reflexivity|]]).
    + destruct B as (w & B & C). exists r, w. split; [reflexivity|]. split; [now apply K|exact C].
    + destruct B as (r' & w & <- & B & C). exists w. split; [now apply K|exact C].
Qed.

(* db' is db with, for each number x and message r related by P, the words of r recorded for x *)
Record learns (W : world) (db db' : database) (P : N -> rfc822 -> Prop) : Prop := {
  le_key : hash_key db' = hash_key db;
  le_rec : forall p v x, recorded db' p v x <-> recorded db p v x \/ exists r w, P x r /\ mentions (w_alnum W) r p w /\ v = lower w;
  le_ref : forall v x, refers db' v x <-> refers db v x \/ exists r own w, P x r /\ carries r own w /\ v = lower w;
  le_id : forall v x, has_id db' v x <-> has_id db v x \/ exists r w, P x r /\ carries r true w /\ v = lower w }.
Lemma records_learns W db db' i o : records W db db' i o -> learns W db db' (fun x r => x = i /\ o r).
Proof.
  intros R. constructor; [apply R| | |].
  - intros p v x. rewrite (rc_rec _ _ _ _ _ R). split; (intros [A|A]; [now left|right]).
    + destruct A as (-> & r & w & A & B). exists r, w. tauto.
    + destruct A as (r & w & (-> & A) & B). split; [reflexivity|]. exists r, w. tauto.
  - intros v x. rewrite (rc_ref _ _ _ _ _ R). split; (intros [A|A]; [now left|right]).
    + destruct A as (-> & r & o' & w & A & B). exists r, o', w. tauto.
    + destruct A as (r & o' & w & (-> & A) & B). split; [reflexivity|]. exists r, o', w. tauto.
  - intros v x. rewrite (rc_id _ _ _ _ _ R). split; (intros [A|A]; [now left|right]).
    + destruct A as (-> & r & w & A & B). exists r, w. tauto.
    + destruct A as (r & w & (-> & A) & B). split; [reflexivity|]. exists r, w. tauto.
Qed.
Lemma learns_trans W a b c P Q R : learns W a b P -> learns W b c Q -> (forall x r, R x r <-> P x r \/ Q x r) -> learns W a c R.
Proof.
  intros A B E. constructor.
  - rewrite (le_key _ _ _ _ B). apply A.
  - intros p v x. rewrite (le_rec _ _ _ _ B), (le_rec _ _ _ _ A). split.
    + intros [[H|(r & w & H & K)]|(r & w & H & K)]; [now left|right|right]; exists r, w; (split; [apply E|exact K]); tauto.
    + intros [H|(r & w & H & K)]; [tauto|]. apply E in H as [H|H]; [left; right|right]; eauto.
  - intros v x. rewrite (le_ref _ _ _ _ B), (le_ref _ _ _ _ A). split.
    + intros [[H|(r & o & w & H & K)]|(r & o & w & H & K)]; [now left|right|right]; exists r, o, w; (split; [apply E|exact K]); tauto.
    + intros [H|(r & o & w & H & K)]; [tauto|]. apply E in H as [H|H]; [left; right|right]; eauto 6.
  - intros v x. rewrite (le_id _ _ _ _ B), (le_id _ _ _ _ A). split.
    + intros [[H|(r & w & H & K)]|(r & w & H & K)]; [now left|right|right]; exists r, w; (split; [apply E|exact K]); tauto.
    + intros [H|(r & w & H & K)]; [tauto|]. apply E in H as [H|H]; [left; right|right]; eauto.
Qed.
Lemma learns_none W db db' P : hash_key db' = hash_key db -> (forall p, table db' p = table db p) -> d_ids db' = d_ids db -> (forall x r, ~ P x r) -> learns W db db' P.
Proof.
  intros K T I N. constructor; [exact K| | |].
  - intros p v x. unfold recorded. rewrite T. split; [now left|]. intros [H|(r & w & H & _)]; [exact H|now apply N in H].
  - intros v x. unfold refers. rewrite I. split; [now left|]. intros [H|(r & o & w & H & _)]; [exact H|now apply N in H].
  - intros v x. unfold has_id. rewrite I. split; [now left|]. intros [H|(r & w & H & _)]; [exact H|now apply N in H].
Qed.
Lemma learns_iff W a b P Q : learns W a b P -> (forall x r, Q x r <-> P x r) -> learns W a b Q.
Proof. intros A E. eapply learns_trans; [exact A|apply (learns_none W b b (fun _ _ => False)); auto|]. intros x r. rewrite E. tauto. Qed.
Lemma table_with_msgs db ms p : table (with_msgs db ms) p = table db p.
Proof. destruct p; reflexivity. Qed.
Lemma learns_msgs W db ms db' P : learns W (with_msgs db ms) db' P -> learns W db db' P.
Proof. intros H. eapply learns_trans; [apply (learns_none W db (with_msgs db ms) (fun _ _ => False)); auto using table_with_msgs|exact H|]. tauto. Qed.
Lemma tabs_good_msgs W n db ms : tabs_good W n db -> tabs_good W n (with_msgs db ms).
Proof. intros [A B]. constructor; [intros p; rewrite table_with_msgs; apply A|exact B]. Qed.

(* new files and messages on the server *)
Definition parsed (W : world) (m : msg) : option rfc822 :=
  match src m with
  | S_file p _ _ => if ends_gitignore p then None else make_rfc822 W p
  | S_imap p => if ends_gitignore p then None else w_imap W p
  | _ => None
  end.
Definition path_flags (m : msg) : bool * bool * bool :=
  match src m with S_file p _ _ | S_imap p => scan_maildir_flags p | _ => (false, false, false) end.
Definition scanned (W : world) (m : msg) : msg :=
  match parsed W m with
  | Some (Rfc822 h _) => with_flags m (u32_of_int (h_date h)) (path_flags m)
  | None => m
  end.
Definition is_found (m : msg) : Prop := match src m with S_file _ _ _ | S_imap _ => True | _ => False end.

Lemma set_nth_same {A} (l : list A) i x : nth_error l i = Some x -> set_nth l i x = l.
Proof. revert i. induction l as [|a l IH]; intros [|i]; cbn; try congruence. intros H. f_equal. auto. Qed.
Lemma set_nth_app {A} (l r : list A) a x : set_nth (l ++ a :: r) (length l) x = l ++ x :: r.
Proof. induction l as [|b l IH]; cbn; [reflexivity|now rewrite IH]. Qed.
Lemma nth_app_mid {A} (l r : list A) a : nth_error (l ++ a :: r) (length l) = Some a.
Proof. rewrite nth_error_app2, Nat.sub_diag by lia. reflexivity. Qed.

Lemma parsed_textual W m r : world_ok W -> parsed W m = Some r -> textual (w_alnum W) r.
Proof.
  intros WO. unfold parsed. destruct (src m) as [|p mt sz|p|fi mi]; try discriminate; destruct (ends_gitignore p); try discriminate.
  - unfold make_rfc822. destruct (w_map W p); try discriminate. apply (wo_parse W WO).
  - apply (wo_imap W WO).
Qed.
Lemma scan_message_ok W i m n db : world_ok W -> small i -> tabs_good W n db -> n <= i + 1 ->
  nth_error (msgs db) (N.to_nat i) = Some m -> is_found m ->
  exists db', scan_message W i db = Ok db' /\ tabs_good W (i + 1) db' /\ mboxen db' = mboxen db /\
    msgs db' = set_nth (msgs db) (N.to_nat i) (scanned W m) /\
    learns W db db' (fun x r => x = i /\ parsed W m = Some r).
Proof.
  intros WO S T L E F. unfold scan_message. rewrite E. cbn [fetch bind].
  assert (NO : parsed W m = None -> exists db', Ok db = Ok db' /\ tabs_good W (i + 1) db' /\ mboxen db' = mboxen db /\
     msgs db' = set_nth (msgs db) (N.to_nat i) (scanned W m) /\ learns W db db' (fun x r => x = i /\ parsed W m = Some r)).
  { intros H. exists db. split; [reflexivity|]. split; [eapply tabs_le; eauto|]. split; [reflexivity|].
    split; [unfold scanned; rewrite H; symmetry; now apply set_nth_same|]. apply learns_none; auto. intros x r [_ X]. congruence. }
  assert (YES : forall h atts f, parsed W m = Some (Rfc822 h atts) -> f = path_flags m -> exists db',
     index_words W i (Rfc822 h atts) (with_msgs db (set_nth (msgs db) (N.to_nat i) (with_flags m (u32_of_int (h_date h)) f))) = Ok db' /\
     tabs_good W (i + 1) db' /\ mboxen db' = mboxen db /\
     msgs db' = set_nth (msgs db) (N.to_nat i) (scanned W m) /\ learns W db db' (fun x r => x = i /\ parsed W m = Some r)).
  { intros h atts f H ->. destruct (index_words_ok W i (Rfc822 h atts) n (with_msgs db (set_nth (msgs db) (N.to_nat i) (with_flags m (u32_of_int (h_date h)) (path_flags m)))) WO) as (db' & E' & T' & M' & R');
      [eapply parsed_textual; eauto|exact S|now apply tabs_good_msgs|exact L|].
    exists db'. split; [exact E'|]. split; [exact T'|]. split; [apply R'|]. split; [rewrite M'; unfold scanned; now rewrite H|].
    apply records_learns in R'. apply learns_msgs in R'. eapply learns_iff; [exact R'|]. cbv beta. intros x r. rewrite H. intuition congruence. }
  unfold is_found in F. destruct (src m) as [|p mt sz|p|fi mi] eqn:ES; try contradiction; cbn [bind] in *.
  - destruct (ends_gitignore p) eqn:EG; [apply NO; unfold parsed; now rewrite ES, EG|].
    destruct (make_rfc822 W p) as [[h atts]|] eqn:ER; [apply YES|apply NO]; unfold parsed, path_flags; rewrite ES; rewrite ?EG, ?ER; reflexivity.
  - destruct (ends_gitignore p) eqn:EG; [apply NO; unfold parsed; now rewrite ES, EG|].
    destruct (w_imap W p) as [[h atts]|] eqn:ER; [apply YES|apply NO]; unfold parsed, path_flags; rewrite ES; rewrite ?EG, ?ER; reflexivity.
Qed.

Lemma scan_new_ok W added : world_ok W -> forall pre n db, n <= N.of_nat (length pre) -> tabs_good W n db -> msgs db = pre ++ added ->
  Forall is_found added -> N.of_nat (length pre + length added) <= 63 * 2 ^ 24 ->
  exists db', scan_new_messages W (length added) (N.of_nat (length pre)) db = Ok db' /\
    tabs_good W (N.of_nat (length pre + length added)) db' /\ mboxen db' = mboxen db /\
    msgs db' = pre ++ map (scanned W) added /\
    learns W db db' (fun x r => exists m, (length pre <= N.to_nat x)%nat /\ nth_error added (N.to_nat x - length pre) = Some m /\ parsed W m = Some r).
Proof.
  intros WO. induction added as [|a added IH]; intros pre n db L T M F SM; cbn [length scan_new_messages].
  - exists db. split; [reflexivity|]. split; [eapply tabs_le; [exact T|lia]|]. split; [reflexivity|]. split; [exact M|].
    apply learns_none; auto. intros x r (m & _ & H & _). destruct (N.to_nat x - length pre)%nat; discriminate.
  - inversion F as [|? ? F1 F2]; subst. destruct (scan_message_ok W (N.of_nat (length pre)) a n db WO) as (db1 & E1 & T1 & B1 & M1 & L1); auto.
    + unfold small. cbn [length] in SM. lia.
    + lia.
    + rewrite M, Nat2N.id. apply nth_app_mid.
    + rewrite E1. cbn [bind]. rewrite M, Nat2N.id, set_nth_app in M1.
      destruct (IH (pre ++ [scanned W a]) (N.of_nat (length pre) + 1) db1) as (db2 & E2 & T2 & B2 & M2 & L2).
      * rewrite app_length. cbn [length]. lia.
      * exact T1.
      * rewrite <- app_assoc. exact M1.
      * exact F2.
      * rewrite app_length. cbn [length] in *. lia.
      * exists db2. rewrite app_length in E2, T2. cbn [length] in E2, T2.
        replace (N.of_nat (length pre) + 1) with (N.of_nat (length pre + 1)) by lia. split; [exact E2|].
        replace (length pre + S (length added))%nat with (length pre + 1 + length added)%nat by lia. split; [exact T2|].
        split; [congruence|]. split; [rewrite M2, <- app_assoc; reflexivity|].
        eapply learns_trans; [exact L1|exact L2|]. cbv beta. intros x r. rewrite app_length. cbn [length]. split.
        -- intros (m & H1 & H2 & H3). destruct (Nat.eq_dec (N.to_nat x) (length pre)) as [H|H].
           ++ left. rewrite H, Nat.sub_diag in H2. cbn in H2. injection H2 as <-. split; [lia|exact H3].
           ++ right. exists m. split; [lia|]. split; [|exact H3]. replace (N.to_nat x - length pre)%nat with (S (N.to_nat x - (length pre + 1))) in H2 by lia. exact H2.
        -- intros [(-> & H)|(m & H1 & H2 & H3)].
           ++ exists a. split; [lia|]. split; [|exact H]. now rewrite Nat2N.id, Nat.sub_diag.
           ++ exists m. split; [lia|]. split; [|exact H3]. replace (N.to_nat x - length pre)%nat with (S (N.to_nat x - (length pre + 1))) by lia. exact H2.
Qed.
